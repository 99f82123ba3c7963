# Formal model of ecksbee/telefacts in Rocq (Coq 8.16.1)

## 1. What is modelled, and how

The Go packages `pkg/attr`, `pkg/serializables`, `pkg/hydratables`,
`pkg/renderables`, `pkg/cache`, `internal/web` are modelled function by
function in `rocq/theories/*Model.v`. Each definition cites the file and lines
it models. Conventions:

- **Strings** are byte strings (Coq `string`), as in Go; `<` is the bytewise
  lexicographic order, as in Go.
- **nil, panic, error.** `res A := Ok a | Err msg | Panic`. Every nil
  dereference, index out of range, failed type assertion that the Go code can
  hit is an explicit `Panic` branch. Non-termination is a fuelled function whose
  out-of-fuel answer is a separate value.
- **Go maps** are association lists with distinct keys. The list order *is* the
  order one `range` loop sees. Theorems quantify over all orders (all
  permutations). Where one function ranges over the same map several times, each
  loop gets its own order argument.
- **Goroutines** are transition systems whose steps are the atomic accesses
  relevant to the property; theorems quantify over all schedules.
- **Pointers/slices** are values; where aliasing matters (period headers, stack
  copies) the model returns the updated value explicitly.
- **float64** is `SpecFloat.spec_float` (no primitive floats, no axioms).
- **sort.SliceStable** is a stable insertion sort (the documented contract of the
  Go library function for a strict weak order).
- **External code** enters as universally quantified function arguments or as
  outcome relations (any outcome allowed), never as an axiom. Section 3 lists
  what is external and what is modelled from its documentation.

File layout: `XModel.v` (model only, no proofs), `XSpec.v` (independent
specification, own constants), `XProofs.v` (lemmas), `XProps.v` (property
theorems closed by `exact`, `Print Assumptions` under each, and satisfiability
examples).

A property that the code violates gets a `_refuted` theorem (a concrete witness
traced through the model) and, where something useful remains true, a
`_partial` theorem. Such properties have status `partial` in `MANIFEST.json`.

## 2. Plan per property

- **C01 Qualified names resolve to the bound namespace.** Model Xmlns/Ns/IndexRune over byte strings (AttrModel). Spec: declarative 'first declaration' relation. Induction over the attribute list.
- **C02 Attribute lookup returns the first attribute with the local name.** Model FindAttr. Spec: l1 ++ a :: l2 with no match in l1.
- **C03 One canonical prefix per namespace, whatever the map order.** Model NameProvider (processPrefixes, targetPrefix, newPrefix, ProvideName with an arbitrary permutation as map order). Invariant target[o] = nameMap[origin[o]] over the attribute loop.
- **C04 Distinct namespaces never share a canonical prefix.** Refuted by a witness declaration list (vm_compute); partial theorem: no clash with prefixes seen earlier.
- **C05 Building the name provider never panics.** newPrefix as fuelled loop with explicit panic from toChar; refuted by 27 colliding prefixes; partial: no panic with fewer than 27 prefixes in the table.
- **C06 Resolving the name of an inline fact never panics.** ProvideXmlName with explicit slice panic. Refuted for unprefixed names, partial for prefixed ones.
- **C07 The catalog's relationship sets are complete, duplicate free and canonically ordered.** Model dedupRelationshipSets/sortedRelationshipSets with stable sort; uniqueness of sorted duplicate-free permutations for a strict total order.
- **C08 The catalog's subjects are complete, duplicate free and canonically ordered.** Same argument for entities.
- **C09 Every slug in the catalog opens a renderable.** FNV-1a-128 + hex modelled exactly; search loop of MarshalRenderable modelled; membership argument.
- **C10 A slug opens the relationship set and subject it was issued for.** Refuted by concatenation ambiguity; partial theorem under 'no slug collision inside this catalog'.
- **C11 A slug is the lower-case hex FNV-1a-128 of entity, role and title.** Length/alphabet lemma for hex encoding, fold characterisation of FNV; cross-checked against slugs in the repo's tests.
- **C12 A missing entity-name directory does not break rendering.** Error plumbing of MarshalRenderable modelled (the reused err variable). Catalog part proved, renderable part refuted.
- **C13 The catalog names the document exactly for inline folders.** Direct from the MarshalCatalog model.
- **C14 Every fact of a displayed concept has its column.** getRelevantContexts modelled with explicit nil-dereference outcome; induction over hrefs and facts.
- **C15 Columns are only contexts of the subject that hold a fact, each once.** As C14, plus NoDup of (instance, contextRef).
- **C16 Columns are ordered by period, then by number of dimensions.** Comparator of sortContexts modelled; strict weak order on well-formed members; stable sort lemma.
- **C17 Grids are rectangular.** Length lemmas over the grid models.
- **C18 Each cell shows the first fact with the row's concept and the column's context.** nth-lemmas over getFactualQuadrant model, FindFact = first match.
- **C19 Footnote numbers point at the right footnote.** Each range over idMap takes its own arbitrary order. Refuted with two footnotes; partial for at most one footnote.
- **C20 The footnote list holds every footnote of every displayed fact once.** Multiset argument independent of orders.
- **C21 A fact with a dangling context reference cannot crash rendering.** Refuted by a witness with a dangling reference; partial: no crash if all references resolve.
- **C22 Abstract and unknown concepts never create columns.** From the filter in getRelevantContexts.
- **C23 The presentation outline is the depth-first listing of the network.** Rose trees (the external arcs.NewRArc result is universally quantified). Preorder spec as independent inductive definition.
- **C24 Locators resolve to the first usable href of the role's link.** Model of the four mapXLocatorToHref functions; first-match spec.
- **C25 Each summation item lists exactly its calculation arcs.** cMap grouping modelled; membership/filter spec, stable sort.
- **C26 The sign and scale shown for a contribution match the arc weight.** binary64 as SpecFloat; exact round-half-even decimal formatting; |displayed - |w|| <= 0.05.
- **C27 The list of summation items does not depend on map iteration order.** Sorted by unique href; uniqueness of sorted lists; arbitrary permutation of the map.
- **C28 The dimension relationship graph is closed and faithful.** getDRS modelled; set reasoning.
- **C29 Effective domains are canonical.** getEffectiveDomain modelled; sortedness and emptiness.
- **C30 Domain-member roots are split into primary items and explicit domains without loss.** Partition lemma.
- **C31 Every explicit dimension used by a column has a row that shows the column's member.** Model of getContextualMembers/explicit rows; nth-lemma.
- **C32 Typed-domain rows are attributed to their own dimension.** Refuted by two typed dimensions (witness); partial for one.
- **C33 A renderable offers the label roles and languages of all three grids.** The three goroutines append to two shared slices without a lock. A slice is a header (array, length) in a memory of growing arrays; loading the header, copying each element into a grown array, writing each appended element and storing the header are separate steps (simplification: the header itself is read and written atomically, a torn header is not modelled). Refuted by a lost update; partial: on every schedule nothing is invented and the run ends, and if no two appends overlap the result is exactly the union.
- **C34 Labels: identity label always present, later labels win.** GetLabel modelled as a fold over linkbases/links/arcs/labels; last-write-wins spec.
- **C35 English labels tagged 'en' are shown.** Refuted: the 'en' case is empty. Partial: 'en-US' and 'es'.
- **C36 The language list of a grid covers every concept's languages.** Refuted: reduce resets the pack of a role. Partial: languages of the last pack per role; single pack exact.
- **C37 Exactly the well-formed facts are loaded, unchanged.** Model hydrateFacts; filter/map/stable-sort characterisation.
- **C38 Decimals are read exactly.** Model strconv.Atoi and the sentinels; refuted for two sentinel values, partial elsewhere (round trip through decimal printing).
- **C39 Exactly the well-formed contexts are loaded.** Model hydrateContexts; filter/map/stable-sort characterisation; panic for missing entity shown separately.
- **C40 Units are loaded with numerator and denominator.** Model hydrateUnits.
- **C41 Every footnote of a fact is found.** Model GetFootnotes; refuted (early return); partial for a single link.
- **C42 The unit of a fact resolves to its registry entries.** Model FindMeasurement; denominator part refuted, numerator part proved.
- **C43 Typed members keep the nesting of their elements.** Token loop of hydrateTypedMembers modelled; refuted for siblings; partial for nested-only content.
- **C44 Exactly the well-formed concepts are loaded.** Model hydrateConcepts.
- **C45 Role types of all annotations are loaded.** Refuted (first annotation only); partial exact statement for the first annotation.
- **C46 Exactly the well-formed arcs and locators are loaded.** Model the four link hydrators; filter/map specs with the spec's own attribute names.
- **C47 xbrldt:closed and xbrldt:usable are honoured.** Refuted with witnesses; partial exact behaviour.
- **C48 Links with the same role are merged without loss.** Model dedup*Link with arbitrary map order.
- **C49 Concept names and hrefs are inverse lookups.** Round trip through href = location#id.
- **C50 The month count of a duration is its number of calendar months.** Gregorian calendar with day-by-day loop as in the code; closed form by induction.
- **C51 Period labels fall back to the ISO period.** time.Parse for the fixed layout modelled; fallback lemmas.
- **C52 Every period header has a text in every offered language.** Fold over languages as in formatRelevantPeriod.
- **C53 Text blocks never crash the renderer.** Stack invariant: concatenation of blocks n^(n-1).
- **C54 Expanded table cells stay balanced.** Counting invariant over the token stream.
- **C55 Rendered text blocks contain only table markup.** Refuted (text is emitted unescaped); partial: markup tokens only emit the whitelist.
- **C56 The response cache is transparent for successful responses.** Requests as programs over a cache, two Go RWMutexes with their exact waiting rules, background writers; discovery, hydration and rendering are outcome relations (any outcome, also a panic). Refuted by two facts that share a key; partial: whenever keys are separate, which holds for ordinary ids and names without a hash collision. C56_attained: conversely every result of the uncached computation is given by some run (so the theorem is not met by a server that says nothing).
- **C57 A failing request keeps failing the same way.** Refuted twice (a cached nil folder panics; a cached nil response is a success). Partial: failed discovery always fails the same way, and a failing request is never answered with content.
- **C58 Different requests never share a cache entry.** Which keys a request's program touches (C58_keys), then: refuted for facts and for the folder names.json; partial: separate for ordinary ids and names without a hash collision.
- **C59 No request can wedge the server.** Refuted: three requests leave the lock read-locked for ever and every later request unanswered. Partial: with separate keys every schedule ends, both locks are free and each request whose own calls return is answered, even if the calls of others hang, unless the process has ended (C131). C59_machine_refuted: on every machine with a readable names.json and one report that loads, the two requests GET /folders/names.json and GET /folders/<id> do it.
- **C60 Dry mode neither reads nor writes the cache.** Invariant over all runs: answers are uncached answers and the cache is never written (requests for global files are covered by dry injection only).
- **C61 HTTP status reflects the outcome.** Handlers over a response-writer state machine (header fixed at WriteHeader); url.ParseQuery and QueryUnescape modelled and characterised by an independent grammar of query strings. Refuted: a missing name or contextref is passed on as empty; partial: everything else, exactly. The router is in C123.
- **C62 JSON responses are labelled as JSON.** Refuted for every success: the header is set after WriteHeader; partial: the content type is the one net/http guesses from the bytes.
- **C63 The inline document is served verbatim under its own name.** From C56: partial, for separate keys. Refuted (`C63_refuted`) for the functions of the cache called with a slug that has a slash: the document of folder F/x and the slug x/a.htm of folder F share a key. The router never passes such a slug.
- **C64 Taxonomy URLs stay inside the global taxonomy set.** filepath.Clean/Join modelled by their documentation; the specification walks a path segment by segment. Refuted by '..' in the path and by the host '..'; partial: the exact place without them. url.Parse is an argument.
- **C65 A keyed folder is created at most once.** Any number of NewFolder calls, one system call or piece of a write at a time, on a shared file system; every system call may also fail. Invariant: a directory has at most one owner, who made it.
- **C66 A crash during NewFolder leaves no half-made folder.** Crash = drop all calls, keep the files. Refuted: a stop after Mkdir leaves a folder without entry file name that later calls report as existing; partial: complete folders survive, half-made ones only come from running or failed calls.
- **C67 The entry file name of a new folder is read back.** From the invariant of C65: the content of "_" is exactly what was encoded; encoding/json's string codec is modelled in JsonModel. Refuted for entry names that are not UTF-8; partial: the name is read back exactly when it is UTF-8.
- **C68 Discovery loads exactly the documents reachable from the entry point, on every schedule.** Goroutines as a tree of processes that share the folder (DiscoverModel): each step under the lock is one step. What is written is proved followed (soundness) and what is owed at the start is settled at the end (completeness), on every schedule. Refuted: an included schema without a target namespace is never loaded; partial: exactly the documents reachable where schemaRef and include name schemas with a target namespace and imports a namespace; C68_schedule: the same on every schedule.
- **C69 Discovery terminates on cyclic schemas.** Refuted by a self-include; partial: Discover returns exactly when no chain of references is endless (well-founded induction), and then no schedule is endless or stuck.
- **C70 Concepts of an including schema stay resolvable.** Refuted by an include witness (all schedules explored through an exhaustive successor function proved complete); partial: if no other document is given for the namespace.
- **C71 Inlining images changes only image sources.** Rose tree of HTML nodes; structural induction; the specification is a relation that leaves no choice. html.Parse and html.Render are arguments.
- **C72 Document hydration is independent of goroutine scheduling.** Goroutines as arbitrary permutation/interleaving of atomic bodies.
- **C73 Asking for a fact never crashes the service.** MarshalExpressable modelled with explicit nil dereferences (ExpressModel). Refuted: nil document, missing context; partial: with a document and resolvable references no request crashes (invariant of makeIndents: below the first level a dimension is at hand).
- **C74 A fact lookup returns the requested fact.** Soundness for any number of instances and any map orders; completeness, period and footnotes for one instance; exact condition for answering nothing.
- **C75 Facts are rendered in exactly the supported requested languages.** Fold over languages.
- **C76 Stack is LIFO and copies are independent.** Direct model of Stack with explicit copying.
- **C77 Merged typed-domain trees list every path once.** Path-set semantics of rose trees.
- **C78 The unit registry returns the last complete entry for a unit.** Model mapMeasurements as fold; last-match spec.
- **C79 Hydration is all or nothing.** Model Hydrate's sequencing.
- **C80 Entity names fall back to scheme/identifier.** Model EntityQuery (CatalogModel); the name table is an argument.
- **C81 Typed member contents never crash loading.** Token loop of hydrateTypedMembers with explicit nil dereference. Refuted: an element that no schema declares; partial: no crash if every element inside is declared.
- **C82 Typed member values belong to their own element.** Induction over the token stream with the stack of open elements.
- **C83 A malformed inline fact cannot crash the process.** Refuted: an inline fact without a name or context attribute; partial: no crash if every inline fact has both.
- **C84 Text blocks keep their text.** Induction over the token stream (FactModel); the tokenizer is external.
- **C85 A shown fact carries its value, sign and unit.** Case analysis of the fact expression against an independent relation, which is proved single-valued.
- **C86 The calculation grid shows the same facts whatever the map iteration order.** The state the loop threads through the map (label packs, languages) is modelled; refuted by two orders of one grid; partial: cells agree on shared languages, and share all if the labels used have the same roles and languages.
- **C87 Only dimension-default arcs are shown as defaults.** Refuted: dimension-domain arcs are marked too; partial: dimension-default arcs always are, and nothing but these two.
- **C88 An effective domain lists the default and the members of its dimension.** Refuted three ways (members of other dimensions, excluded defaults of other dimensions, no inheritance); partial: the exact contents for networks without repeated concepts, by flattening the nested loops.
- **C89 A definition grid has one root domain per primary-item root.** Invariant over the loop that builds the root domains.
- **C90 The dimensions of a root domain are those of its link.** Refuted: every definition linkbase maps the locators; partial: one definition linkbase.
- **C91 A definition grid offers every label role it shows.** Refuted for effective members; partial: roots, items, dimensions.
- **C92 A fact is shown in every supported language the renderable offers.** Refuted: facts are rendered in the languages of their own grid only; partial: they are shown in all supported languages of their own grid.
- **C93 A fact answer lists the dimensions of its context.** Refuted: a typed dimension of another context of the same concept removes all rows; partial: exact rows if the typed members involved are about dimensions of the requested context.
- **C94 The cache of global taxonomy files is transparent.** Refuted: the registry's URL asked for as a schema panics; partial: separate keys, errors included.
- **C95 A fact request asks for the fact named in the URL.** Refuted: the fields are decoded twice; partial: names and references without % and +.
- **C96 A missing taxonomy file is reported.** Refuted: the error is shadowed, (nil, nil) is returned; partial: bytes are returned exactly for a file that is there and readable.
- **C97 Different taxonomy documents have different files.** Refuted with '..'; partial: injective without.
- **C98 Exactly the JPEG and PNG files of a folder are offered for inlining.** Fold over the directory entries; http.DetectContentType and base64 are arguments.
- **C99 Discovering a folder never crashes.** Refuted: an undecodable inline document in a folder with an image dereferences nil; partial: no images, or decodable.
- **C100 Which document stands for a namespace does not depend on the schedule.** Refuted by two schemaRefs to schemas of one namespace; partial: each namespace is mapped to a document given for it, so the map is the same if there is only one.
- **C101 Discovery reads only files of the folder.** Refuted by a reference with '..'; partial: references without '..'.
- **C102 A discovered folder holds the instance of its entry file.** Refuted: other suffixes give an empty folder; partial: .xhtml, .htm, .xbrl, .xml.
- **C103 Every reported fact of a document is loaded.** Model: `XmlModel` (from the XML tree through encoding/xml's struct tags to the decoded structs), composed with `hydrate_instance`. Refuted: facts named context, unit, schemaRef or footnoteLink, and facts in tuples, are lost; partial: exact description of what is loaded.
- **C104 Contexts and units are read as the XML says.** Refuted: foreign homonyms, prefixes declared below the root, padded members; partial: exact for documents without these three.
- **C105 A label shows the whole text of its element.** Refuted: text in markup is lost; partial: exact if labels contain text only.
- **C106 Files of another kind are refused.** Refuted for every decoder: the namespace is not looked at; partial: exact up to the namespace.
- **C107 A schema's concepts are its element declarations.** Refuted: prefixes declared on the declaration; partial: exact otherwise.
- **C108 A linkbase's links are those of its XML.** Refuted: foreign homonyms; partial: exact otherwise.
- **C109 The unit registry is read as written.** Proof: `query_utr` after `decode_utr` against the tree.
- **C110 The parts of an inline document are found wherever they are.** Proof: the query function selects exactly the located elements of the document-order walk.
- **C111 All facts of an inline document are known.** Refuted: ix:fraction facts, and prefixes declared below the root (the document is refused); partial: exact otherwise.
- **C112 A schema's role types are those of its XML.** Refuted: annotations or appinfos after the first, and text in markup, are lost; partial: exact with one appinfo and plain text.
- **C113 Footnotes are read as written.** Refuted: foreign homonyms; partial: exact otherwise.
- **C114 A report consists of the documents its instance leads to.** Proof: `loaded` composes decoding (C103-C113), discovery (C69, C102) and hydration (C79) over a disk of paths, bytes and trees; the references, and the closure under them, are restated on the trees.
- **C115 A report has exactly the facts its instance states.** Refuted: a fact is lost if its schema includes another one of the same namespace (the include takes the namespace over); partial: exact if each namespace is claimed by one document.
- **C116 Every document of a loaded report is as written on disk.** Partial, with the conditions of C104-C113 on each document. Refuted without them (`C116_refuted`): the entity of a context may be read from an element of another namespace.
- **C117 An inline report has an index of its inline document.** Partial, with the conditions of C111. Refuted without them (`C117_refuted`): facts in ix:fraction elements are not in the index.
- **C118 A well-formed report loads.** Discovery ends exactly if no schema leads to itself; refuted: a schema that includes itself, a context without an entity; partial: loads otherwise.
- **C119 Every answer is JSON that says what was computed.** ResponseModel writes the bytes of json.Marshal for the three answers (escapes, omitempty, sorted map keys, null for nil slices). Spec: an independent grammar of JSON texts and the value they denote; proved unique, and of the documented shape.
- **C120 The catalog's bytes do not depend on map order.** From C07/C08 and sorting of map keys.
- **C121 Lists in an answer are lists.** Refuted: CGrid.SummationItems is null for a role without calculation networks; partial: catalog and facts have no null, in a renderable null is only at three names and it is stated when.
- **C122 The catalog a client reads lists the roles and the entities in the files on disk.** Composition of C114, C115, C112, C104, C07/C08, C119 and C61. Refuted: role types in a second annotation; partial otherwise.
- **C123 Every address is answered by one endpoint.** RouterModel: the routing table on a matcher for mux templates (by mux's documentation), cleanPath on the path.Clean of PathModel. Spec: forms of addresses. Case analysis over the forms of a path; cleaning by the place a path leads to.
- **C124 A client can follow the catalog to every renderable.** Composition of C13, C09, C11, C119 and C123.
- **C125 A client sees the facts of the report, as written, and nothing else.** ReportModel puts the models of the parts together: MarshalCatalog, MarshalRenderable and MarshalExpressable on a Hydratable, as relations over all orders in which its maps are visited. Composition of C115, C116, C14, C17, C18, C75, C85, C33 and C119, for the presentation grid, every root domain and every summation item. Partial: under the conditions of C115 and C116 on the XML; refuted for two facts of the same concept and context (the first by id is shown).
- **C126 A request for a fact of an inline document is answered with that fact.** Composition of C117, C118, C73, C74, C75, C85, C52 and the JSON of C119 over ReportModel: soundness of every answer in all cases; an answer exists exactly when the fact does and nothing panics if the contexts of the facts exist and no context has a typed member. Partial: under the conditions of C111 and C115 on the XML; refuted for facts tagged ix:fraction, which are not indexed.
- **C127 The running server answers with what is on disk.** ServerModel joins the router, the handlers, the cache and the report: the services of CacheModel are the relations of LoadModel and ReportModel. Composition of C56 and C58's invariant (every answer is explained by the uncached calls), C123 and C122, C125, C126. Partial: under the conditions of those theorems on the XML and of C56 on the keys; refuted: after an answer 500 the same request is answered 200 with an empty body.
- **C128 Every request to the running server is answered.** C59 over ServerModel: C118 gives the end of discovery, C72 that of reading the document, C125 and C126 that of rendering. Partial: for folders whose schemas do not refer to each other in a circle, whatever happens to requests for other folders short of the end of the process (C131); refuted for a schema that includes itself.
- **C129 A client sees each network as drawn in the linkbases.** Composition of C116 (linkbases read as written), C23, C25, C34, C49 and C119 over ReportModel, and for the running server after any history (C129_served_*). Partial: the rows are those of one linkbase that has the network, arcs with a NaN order and links with elements of other namespaces excluded, the tree builder (internal/graph) external; refuted when two linkbases share a role.
- **C130 Displaying a report does not crash the server.** The two dereferences of nil that rendering can reach are those of a missing context (contexts.go:217) and of a dimension above a typed member (contextualQuadrant.go). The second is unreachable: hydration only builds typed members whose arcs start at a non-blank dimension (induction over the tokens), so no tree of theirs has a blank top node. The first needs a fact without its context, which the theorem excludes; refuted without that, by a loaded report whose network crashes the process in every order and schedule.
- **C131 A request for one report does not take the server down.** A panic in the handler's own goroutine is recovered by net/http; one in a goroutine that the called code has started (renderable.go:56,67,78, document.go:33,60) ends the process. In CacheModel a call may therefore also end in `Crash`, after which no step is possible. Over every history: the process ends only if some request is for a folder whose hydration, or whose network, may panic in such a goroutine (C131_cause_partial), and every such request can end it (C131_ends_partial). Over ServerModel: if in every folder asked about each fact's contextRef names a context of the instance and the inline facts have a name and a context, the process never ends and all requests are answered (C131_partial, from C130's and C111's lemmas). Refuted: one fact with a missing context; the request being served for another folder is never answered, and nothing is served afterwards.
- **C132 A folder's answers depend on its own files only.** The served answers over ServerModel with the file system exchanged outside the folder (IsolateSpec.same_folder). Partial: if neither the entry file's name nor a reference in the report's documents goes up (`..`), the set of possible answers, and whether the process may end, is the same (C132_partial), and what any history serves may be served with other files elsewhere (C132_content_partial). Refuted: the entry file `../g/x.xml` is read from another folder.
- **C133 A client's address leads to one folder below the working directory only.** SetupModel (main.go, url.go, global.go on a machine), RouterModel and PathModel joined: every request that an address makes is for the directory `<base>/wd/folders/<id>`, where `<id>` is one name, not `.` or `..`; two such folders have no file in common (C133_apart).
- **C134 The server starts whatever files are there.** SetupModel.started: the three calls of main.go:51-53 as a run of CacheModel. Partial: if the current directory can be read, start-up completes on every schedule without a panic (json.Unmarshal into the map of names is assumed not to panic). Refuted: without a current directory NewRouter panics although WD and GTS are given, so the fallback of main.go:37-39 is of no use.
- **C135 Missing global files only cost names and units.** Over the server in operation. Refuted twice: without a readable unit registry no content of any report is ever served; without readable names no network is ever displayed (the error of EntityQuery is returned, renderable.go:94,116). Partial: the answers about facts do not depend on the names at all, and the catalog is the one that an empty file of names gives.
- **C136 A client sees the dimensional structure as drawn in the definition linkbases.** Composition of C116 (linkbases read as written), C26-C28, C49 and C119 over ReportModel, against DimNetSpec, and for the running server after any history (C136_served_*). Partial: arcs with a NaN order and links with elements of other namespaces excluded, domains exact only where nothing is ambiguous (C27), the tree builder (internal/graph) external; refuted for the dimensions: with a second definition linkbase a label shows up as a dimension that no locator points to.
- **C137 A client sees the dimension members of every column as written.** Composition of C116 (contexts read as written), C30-C32 and C119 over ReportModel, against ColumnSpec, beside what C125 says of the same grids, and for the running server after any history (C137_served_members_partial). Partial: under the conditions of C116 on the XML; members are complete only in grids whose typed members are simple, one element each (C31_refuted: one that is not makes rows disappear), typed members only where the columns have one typed dimension (C32_refuted: otherwise rows of typed domains name another dimension). MissedProps has a folder for each of the two, loaded, well written and answered as JSON: the row of an explicit member is missing (`C137_refuted`), the row of a typed member names another dimension (`C137_typed_refuted`).
- **C138 A client sees the footnotes of the facts shown, and no others.** Composition of C113/C116 (links read as written), C41, C18, C19 and C119 over ReportModel, against ColumnSpec, and for the running server after any history (C138_served_footnotes_partial). Partial: footnote links that are tidy (labels and ids of footnotes agree and are unique, the arcs of a fact in one link from one locator: the conditions C41 needs), a faithful tree builder; that the numbers of a cell are those of its own footnotes is C19 (refuted). Refuted for a fact with a footnote in each of two footnote links (`C138_refuted`, a folder and the JSON of its answer): that of the second link is not listed.
- **C139 Ctrl+C ends the server.** MainModel: main.go's main and listenForShutdown, with the documented behaviour of net/http's Server, os/signal and flag, as a timed transition system whose log of events is all the theorems speak of. Refuted: an interrupt during set-up, before signal.Notify, kills the process. Partial: any other interrupt leads to an exit with status 0 within the grace period, nothing is accepted at a later time, and no state is stuck.
- **C140 Requests in work are answered before the server stops.** MainModel. Refuted twice: SIGTERM is not caught and drops the requests in work; and a grace period that runs out drops them with status 0. Partial: at an exit with status 0 every request read was answered, or cut off for taking over 15 seconds or panicking, or the whole grace period has passed.
- **C141 A server that cannot listen does not stay.** MainModel. Refuted twice: the error of ListenAndServe is only logged, so the process stays for any time, and its status is 0 once interrupted. Partial: such a process accepts and answers nothing.
- **C142 A wrong command line is refused.** MainModel. Refuted: the flags are parsed after the listener's goroutine has been started, so a request can be taken and dropped. Partial: all that is seen of such a process happens at one time (steps of main take none), it exits with status 2 (0 for help), and is never stuck before that.
- **C143 Every request is answered once, in time.** MainModel, WriteTimeout. Refuted: a request in work for longer than 15 seconds is never answered. Partial: answers are to requests of the same connection, at most 15 seconds old; one outcome per request; an answer ready in time can be sent in every such state; one not sent in time never is.
- **C144 Numbers are shown with the unit they are reported in.** ReaderSpec, over XmlModel, InstanceModel, ReportModel and SetupModel: from the XML of the instance and of the registry to the bytes of the answer. Refuted: the local name of the denominator is looked up from the numerator, so an amount of USD per share is shown without the share. Partial: for well written reports, the measure or numerator is the one reported, and what is shown as denominator is exactly what that mistaken lookup finds. Missing: reports that are not well written.
- **C145 Answers give an entity its name.** ReaderSpec. Refuted: without a readable names.json no network is answered at all. Partial: with one, networks give the name in it or scheme/identifier; the catalogue does so in every case.
- **C146 Column headers say the period of the column in every language offered.** ReaderSpec, with the texts of PeriodSpec. HeaderProps drops the condition on how the report is written: C146_any_report and C146_any_served hold of every report that can be loaded, in terms of its contexts as loaded. Partial: that these are the contexts as written is for well written reports. Refuted without that (PaddedProps): a date with white space around it is shown as it stands, in every language.
- **C147 The columns of a grid come in the order of time.** OrderSpec: by the period as written, then by the number of members; C147_in_time shows for all dates of the form YYYY-MM-DD that this order is that of the calendar. HeaderProps drops the condition on how the report is written: C147_any_report and C147_any_served hold of every report that can be loaded, in terms of its contexts as loaded. C147_order_as_written and C147_served_as_written add, for well written reports, that these are the contexts as the XML has them (C125).
- **C148 Refused requests leave nothing behind in memory.** KeptSpec, on the transition system of CacheModel. Refuted: for every n, n refused requests for grids that do not exist leave n entries, which nothing ever removes. Partial: at most two entries for each different request that was made, and none for a folder that is not there.
- **C149 A network looks the same whenever it is computed.** `SteadySpec.v` says which reports are asked for one thing only: one instance, no concept labelled by two linkbases, one text for each typed member. For those, two answers show the same subject, relationship set, rows, columns, members and cells of the presentation if its role is drawn by at most one linkbase, and the same dimensions if there is at most one definition linkbase (C149_same_partial), for every order of every map and every schedule of the two. If the role is drawn by at most one calculation linkbase they also show the same sums, each with the same terms, columns and members, and in every language in which a cell of both shows a fact it shows the same (`SteadyCalcSpec.v`, C149_calculation_partial). The footnotes of the presentation, of each sum and of each root of the dimensions are the same up to their order, each cell has as many numbers, and a single footnote keeps its number (C149_footnotes_partial, C149_calculation_partial). `C149_loads_partial` and `C149_served_partial` extend the part about the presentation to two loads of a folder, and to what two servers send or one server before and after a restart, when every namespace of the folder has one document (else see C100). `C149_dimensions_loads_partial`, `C149_calculation_loads_partial`, `C149_footnotes_loads_partial` and `C149_grids_served_partial` (`AlikeDimProps.v`) do so for the dimensions, the sums and the footnotes. Refuted in general: the goroutines share two slices without synchronisation, so that Lang and LabelRoles differ from answer to answer (C149_refuted); and with two definition linkbases, one of them empty, the dimensions come in either order (C149_dimensions_refuted). Missing: the order of two or more footnotes, which is that of a map (C19), and the languages of the cells of a calculation, which depend on an order (C86).
- **C150 There is one response cache.** NewCacheModel: the calls of NewCache as steps over the variables of the package and a sync.Once. For every interleaving at most one cache is made and every cache returned is that one (C150_one); a call that no other overlaps always returns, sets the mode, and returns the cache if it asks for one (C150_alone). Refuted: NewCache(false) returns nil if a NewCache(true) sets the mode between its own write and read of dry; NewCache(true) returns nil if it is the first. Partial: without a dry call every call returns the cache.
- **C151 The layout of a text block is kept.** HTML as a forest, written out as tokens; the relation `drawn` says what each node is shown as. By induction on the forest, with the renderer's stacks and table counter as the invariant. Refuted by a cell of one column inside a cell that spans two (nested tables); partial: HTML without such cells.
- **C152 What is on offer can be opened.** The served history of C127 with the loader of C118 and the catalog of C124: `sound` says what a folder needs; an answer comes from a load of the folder, possibly an earlier one, and two loads list the same slugs in every order. Refuted when the file of entity names cannot be read: the catalog leaves it aside, every network then answers 500. Partial: with that file readable; facts with the conditions of C126.
- **C153 A folder is served as it was loaded, whatever its files become.** `ChangeModel.v` lets every step of a request see any of the worlds there are while the server runs (`services_over`); the cache is that of C53 with any services. Proved: on an idle server a page that has been the only answer so far is the only answer from then on, in memory and over HTTP (`C153_kept_partial`, `C153_page_partial`), and if the first request about a folder was alone and succeeded, one load of the folder explains it and all later answers (`C153_one_load_partial`). Refuted: two first requests that overlap can each load the folder, and the idle server then keeps a catalog of the old files beside a grid of the new ones (`C153_refuted`). Missing from the partial theorems: first requests that overlap.
- **C154 A reference to a concept means the document it names.** `TaxonomySpec.v` says which file of the machine an address means, in terms of places (C64) and a file system in which a place has one content; SetupModel has the path arithmetic of main.go and global.go. `C154_documents_partial` identifies the `known` schemas that C115 to C125 speak of with those files, `C154_concepts_partial` the concept of every reference with the declaration there, `C154_units` and `C154_names` the other two global files. Refuted: an address with `..` is read from outside of the taxonomy set. Missing from the partial theorems: such addresses, and declarations that declare namespaces themselves (C107).
- **C155 The files of the web page are got under their own addresses, and no others.** BrowserModel: net/http's StripPrefix, FileServer and Dir as NewRouter combines them, by their documentation and code (Go 1.22), on a machine that says what is at each path; BrowserSpec: addresses of names, places (C64), relative references (RFC 3986) and a client that follows redirects through the router of C123. `C155_pages` says what every page with status 200 is, `C155_confined` is noninterference for everything outside of the directory (all methods and addresses), `C155_start`, `C155_files_partial` and `C155_directories_partial` say what is shown, `C155_ends_partial` that redirects end. Refuted: files in a directory `folders` are hidden by the interface of the reports, and the directory `a?b` is redirected to `a?b/`, which is another address. Missing from the partial theorems: those names (files may have any other name without NUL; directories and ends: letters, digits and `-._~`).
- **C156 A grid offers the label roles and languages of what it shows.** No new model; LangSpec says which concepts a grid shows (rows, the dimensions and explicit members of its columns, for root domains also dimensions and default members). For each of the three grids: the label roles are exactly those of these concepts (a definition grid may add those of the dimensions of links without roots), the languages are among theirs, and are all of theirs if any two of the concepts with a label role have it in the same languages. Refuted without that condition (C36, here for the rows of a grid), for members of effective domains other than defaults (C91), and for typed domains, whose labels are shown but not collected.
- **C157 Reading a typed member ends.** TypedModel: the loop of hydrateTypedMembers, one call of encoding/xml's `Token` after the other; it ends at io.EOF only. A document decoder with a CharsetReader accepts an XML declaration of another encoding wherever it stands (Go 1.22); the decoder of the typed member has none, fails, and fails again in every later call. `C157_refuted`: with such a declaration inside a typed member the loop never ends. `C157_endless_partial` says exactly when it does not end; `C157_ends_partial` that it ends otherwise, with the result of InstanceModel's `hydrate_typed_members`, on which the other theorems rest.
- **C158 A short text block has a short rendering.** No new model; SizeSpec says how long a token is when written as short as possible. `C158_partial`: if no cell spans more than n columns, the rendering is at most 4n times as long as the text block. `C158_refuted`: a cell of 33 bytes that claims to span 10^18 columns has a rendering of 4 * 10^18 bytes, as every column gets a cell of its own. Missing from the partial theorem: a bound that does not depend on the spans, which there is not.
- **C159 A concept has one label.** No new model. `C159_exactly_partial`: any two calls of GetLabel for a concept, each visiting the label linkbases in its own order, show the same label roles, languages and texts exactly if no two linkbases give the concept different texts in the same role and language. `C159_refuted`: with two linkbases that do, the label depends on the order of a map. Missing: nothing else; the condition is exact. It also shows that the simplification about GetLabel in 3.5 only matters for such linkbases.
- **C160 Writing a file replaces its content.** WriteModel: WriteFile by system calls (open with truncation, pieces of a write at the call's own offset, return) on a shared file system, any number of calls, any failure, a crash anywhere. Refuted twice: a crash after the truncation leaves neither the old content nor the data, and two calls at the same time may leave a mixture although both succeed. Partial, for a file only one call is for: what each result says about the file, what a crash may leave, other files unchanged, every call ends (an invariant over runs, a measure).
- **C161 The catalog names the document of an inline report, and the document is served under that name.** No new model: ServerModel, CacheModel and CatalogModel. The catalog's bytes are read back as JSON; discovery is shown to keep the document it found (induction over its run), so DocumentName is the entry file's name exactly for inline entry files; the renderable route for that name sends the document's bytes.
- **C162 The dimension rows of a grid come in a fixed order, one per explicit dimension.** No new model. Refuted: a dimension used in the segment of one column and in the scenario of another has two rows that look the same. Partial: the rows at the margin come first and in href order, are about exactly the explicit dimensions of the columns (where typed members are simple, C31), at most two per dimension and at most one unless it is used in both places; for every report (order_partial) and for the running server (served_order_partial). By an invariant of makeIndents (what it appends is indented, what it drops it drops altogether) and by counting in the sorted keys.
- **C163 JSON answers hold no markup.** No new model: JsonModel's writer and the answers of the running server. InertSpec says what such a text is (the UTF-8 encodings of scalar values from 32 on, other than the five); every writer is shown to keep to it, field by field, and the theorems say so of each kind of 200 answer after any history; C163_bytes says what it means for the bytes. Proved.
- **C164 The catalog of a folder is the same whenever it is made.** No new model. Two loads of one folder may differ (C100, maps, goroutines), but not in the entities of their contexts, which do not depend on what names mean, nor in their role types, nor in the document (`SameProofs.v`); the lists made of these are canonical (C07, C08), so the catalogs of any two histories have the same bytes, and one address leads to the same role and entity. Proved for the running server.
- **C165 A fact looks the same whenever it is asked for.** No new model. Refuted: two label linkbases that call a concept differently. Partial: for the reports of C149 (one instance, no concept labelled by two linkbases, one text per typed member) all computations come to the same outcome, so that all answers have the same bytes, footnotes included. By the lemmas of `SteadyProofs.v`. `C165_loads_partial` and `C165_served_partial` extend this to two loads of a folder, and to two servers or one server before and after a restart, when every namespace of the folder has one document (else two loads may differ, C100): then two loads have equal instances, give equal answers to every name and href, have the same label linkbases, and documents that agree as maps (`AlikeProofs.v`). Missing: reports outside these bounds.
- **C166 A fact says the same in a table and by itself.** No new model. `TableFactSpec.v` says what an answer about a fact shows (its concept, the period of its context, its value) and when a network agrees with it: if the context is about the subject of the network and the concept is declared and not abstract, then each row of the concept has a cell with the same value, under the same period. Both always have the texts that belong to no language, so these are compared; the answer about a fact has no others. `C166_table` proves it for one load, by C14 (every fact has its column) and because with one instance all ways to find and write a fact agree (`SteadyProofs.v`); `C166_loads` and `C166_served` for two loads of a folder and for what two servers send, when every namespace of the folder has one document (else see C100). `TableGridSpec.v` says the same of the rows of each sum (its terms, then the sum) and of each root of the dimensions (the root, then its items); `C166_grids`, `C166_grids_loads` and `C166_grids_served` prove it.
- **C167 An error cannot be taken for a page.** No new model: the handlers over the response writer (WebModel), the router and the file server (BrowserModel). `ErrorSpec.v` says what it is to be sent as plain text. `C167_refusals` goes through all answers of `serve`; the two outcomes of the router without a handler are unreachable, as the file server has every path. `C167_served` says it of the running server. `C167_folders` and `C167_networks` join this with C163: after any history, what is sent about a folder is a refusal as plain text, a success without markup, or the inline document of the folder under its own name.
- **C168 Every page of a network is one the catalog lists.** The converse of C124, for the bytes that are sent. No new model: the pair a page is about is searched in the two lists the catalog shows, and these are the same for every load (`SameProofs.v`); the name comes from the same table of names. `ListedSpec.v` says what it is for a catalog to list a role and an entity, `C168_listed` joins the two answers. It is about the two lists; that the map of addresses has an entry for every entity and role is C124.
- **C169 Every page of a network has its address in the catalog.** Refuted: the map of addresses has one entry for a role, the lists and the search for a page take a role once for each of its definitions (`C169_refuted`). With one definition for each role (`AddressSpec.v`) the address is there, under the page's own entity and role, as read from the bytes of the catalog (`C169_address_partial`). Missing: roles with two definitions.

## 3. Trusted base

### 3.1 The proof assistant

- Coq 8.16.1's kernel, including its bytecode evaluator (`vm_compute` is used in
  examples and witnesses).
- No axioms: `Print Assumptions` stands under every property theorem and prints
  "Closed under the global context" for each of them. No axiom of the standard
  library is used. (`vcheck` lists the opaque fields of the module types in
  `Coq.ssr.ssrunder`, which the standard library declares when ssreflect is loaded;
  no theorem here depends on them.)
- No functors, module types, plugins, or switched-off checks. Section variables
  are discharged when the section closes, so they are premises of the theorems.

### 3.2 The reading of the code

The model is tied to the Go code by citation only: each definition names the
file and lines it models, and its comment says where it simplifies. Nothing is
generated from the source.

Modelled, function by function:

| Go | Model |
|---|---|
| pkg/attr | AttrModel, PathModel (url.go) |
| pkg/serializables: decoders | XmlModel (encoding/xml struct tags, from the element tree) |
| pkg/serializables: folder.go | DiscoverModel, UnderscoreModel, LoadModel |
| pkg/serializables: image.go, document.go | ImageModel, XmlModel |
| pkg/serializables: global.go, underscore.go | PathModel, UnderscoreModel, JsonModel |
| pkg/hydratables | SchemaModel, LinkbaseModel, InstanceModel, TypedModel, HydrateModel |
| pkg/renderables | CatalogModel, LabelModel, PeriodModel, FactModel, GridModel, CalcModel, DefModel, RenderModel, ExpressModel, ResponseModel, ReportModel (all on a Hydratable) |
| pkg/cache | CacheModel (requests, locks; nothing expires), LoadModel (disk to report) |
| internal/web | WebModel (handlers), RouterModel (NewRouter), BrowserModel (the file server in NewRouter) |
| internal/actions | WriteModel |
| cmd/telefacts: setupServer | ServerModel (how the parts are joined), SetupModel (environment, directories, start-up) |
| cmd/telefacts: main, listenForShutdown | MainModel (listening, command line, signals, time limits) |

Not modelled: ranges and conditional requests of the file server for the browser's files, logging, HTTP below `http.ResponseWriter`, network downloads (any bytes may arrive).

### 3.3 Library code modelled from its documentation

- `sort.SliceStable`: a stable insertion sort. All comparators used are proved to
  be strict weak orders where a theorem needs it.
- `strconv.Atoi`, `ParseBool`, `strings.TrimSpace` (Unicode white space in UTF-8),
  `strings.Split`, `url.ParseQuery`, `url.QueryUnescape`, `filepath.Clean/Join/Ext`.
- `encoding/json`: string codec and the encoding of the answers' structs.
- `encoding/xml`: what `Unmarshal` stores, by struct tag, given the element tree.
- `net/http`: `FileServer`, `Dir` and `StripPrefix` (BrowserModel), `ResponseWriter` (WebModel).
- `sync.RWMutex`: its waiting rules. `sync.WaitGroup`: join.
- `gorilla/mux` v1.8.1: templates, prefixes, subrouters, the method matcher, cleanPath.
- `net/http` Server (`ListenAndServe`, `WriteTimeout`, `Shutdown`), `os/signal`, `flag`: as the comment at the top of
  MainModel says.
- `hash/fnv` 128-bit FNV-1a, `encoding/hex`: exactly.
- `float64`: IEEE binary64 by `SpecFloat`; `Sprintf("%.1f")` exactly (`FormatFloat` with shortest precision is external).
- `xmlquery`/XPath: the node sets of the expressions used, as XPath 1.0 defines them.

### 3.4 Quantified over (any behaviour)

- The XML and HTML tokenizers: theorems start from the tree or token stream. A tree
  stands for the document the Go decoder reads, with names resolved. The tokens of a typed member end with io.EOF
  (C157 says when they do).
- `arcs.NewRArc` (external module, called through `internal/graph`): any forest, or, where a theorem needs the tree
  to be that of the arcs, the hypothesis `faithful_tree`, stated in the theorem.
- `url.Parse`, `html.Parse`, `http.DetectContentType`, `lctime`, number grouping.
- The file system: a map from paths to contents; in UnderscoreModel single calls
  (`Mkdir`, `Create`, `Write`, `Close`) are steps that can fail or be cut off.
- Discovery, hydration and rendering inside the cache model are outcome relations.

### 3.5 Simplifications to keep in mind

- go.mod says Go 1.22, so loop variables are new in every iteration (their addresses
  are stored in contextualQuadrant.go:127 and returned in several finders).
- Slice headers are read and written atomically (C33); single-word variables shared
  between goroutines (`goErr`) are atomic.
- `GetLabel` is one step per call, although it ranges over several maps; all its calls
  for one concept in one grid visit the label linkbases in the same order. The order in
  which `destruct` lists label roles and languages is any permutation (`ge_destruct`).
- `colspan - 1` does not wrap around in text blocks (FactModel).
- In the definition grid each link gets its own arbitrary order of dimensions.
- Nested calls of the cache from hydration into the global schemas are separate
  requests; taking a write lock and announcing the writer is one step.
- Errors of `NewFolder` are distinguished only as far as the code does.
- In MainModel the steps of `main` between waits take no time.
- File names on disk are compared bytewise; there are no symbolic links.

### 3.6 Findings

Every `_refuted` theorem is a concrete input on which the code, read as above,
violates the property; the `_partial` theorems beside it state exactly what remains.
The line of each property in section 2 names both.

{"id": "C01", "title": "Qualified names resolve to the bound namespace", "statement": "attr.Xmlns(attrs, name) splits name at its first ':'; the namespace is the value of the first xmlns:<prefix> declaration in attrs, else (prefix unbound or bound to \"\") the default xmlns declaration, else empty; an unprefixed name gets the default namespace; a name with an empty local part gives the empty name.", "quantifier": "every attribute list and every name string", "why_tests_cant": "The attribute lists and names of XBRL documents are unbounded; a test covers a handful of literals.", "anchors": ["pkg/attr/attr.go:Xmlns", "pkg/attr/attr.go:Ns"]}
{"id": "C02", "title": "Attribute lookup returns the first attribute with the local name", "statement": "FindAttr/FindXpathAttr return the first attribute whose local name equals the requested one (whatever its namespace), and nil exactly when there is none.", "quantifier": "every attribute list and name", "why_tests_cant": "Needs to hold for every attribute order and every namespace mix.", "anchors": ["pkg/attr/attr.go:FindAttr", "pkg/attr/attr.go:FindXpathAttr"]}
{"id": "C03", "title": "One canonical prefix per namespace, whatever the map order", "statement": "For an inline document, ProvideName and ProvideConceptName give two prefixes bound to the same namespace the same canonical prefix; the six XBRL infrastructure namespaces always get their standard prefix; and ProvideName's answer does not depend on Go map iteration order.", "quantifier": "every list of xmlns declarations, every namespace, every map iteration order", "why_tests_cant": "Go randomises map iteration; a test observes one order per run.", "anchors": ["pkg/attr/name.go:processPrefixes", "pkg/attr/name.go:ProvideName", "pkg/attr/name.go:ProvideConceptName"]}
{"id": "C04", "title": "Distinct namespaces never share a canonical prefix", "statement": "Two prefixes of an inline document bound to different namespaces are rewritten to different canonical prefixes, so that two different concepts never get the same canonical name.", "quantifier": "every list of xmlns declarations", "why_tests_cant": "Injectivity over all declaration lists; the failing list is one a test author would not think of.", "anchors": ["pkg/attr/name.go:newPrefix", "pkg/attr/name.go:processPrefixes"]}
{"id": "C05", "title": "Building the name provider never panics", "statement": "NewNameProvider returns normally for every list of namespace declarations, and every fresh prefix it invents differs from all prefixes known when it was invented.", "quantifier": "every list of xmlns declarations, with any number of colliding prefixes", "why_tests_cant": "The failure needs a chain of 27 colliding prefixes.", "anchors": ["pkg/attr/name.go:toChar", "pkg/attr/name.go:newPrefix"]}
{"id": "C06", "title": "Resolving the name of an inline fact never panics", "statement": "ProvideXmlName(name) returns the namespace bound to the prefix and the local part after the first ':', or an error when the prefix is unbound; it never panics.", "quantifier": "every list of xmlns declarations and every name string", "why_tests_cant": "All strings, including unprefixed ones.", "anchors": ["pkg/attr/name.go:ProvideXmlName"]}
{"id": "C07", "title": "The catalog's relationship sets are complete, duplicate free and canonically ordered", "statement": "The RelationshipSets of a catalog are exactly the (roleURI, definition) pairs of the role types with nonempty roleURI in the folder's schemas, each once, in increasing (Title, RoleURI) order; the list does not depend on the order in which the schemas are enumerated.", "quantifier": "every set of hydrated schemas and every enumeration order of the schema map", "why_tests_cant": "Schema map iteration order is randomised and the number of role types unbounded.", "anchors": ["pkg/renderables/relationshipSet.go:sortedRelationshipSets", "pkg/renderables/catalog.go:MarshalCatalog"]}
{"id": "C08", "title": "The catalog's subjects are complete, duplicate free and canonically ordered", "statement": "The Subjects of a catalog are exactly the (scheme, identifier) entities of the contexts of the instances, each once, in increasing (scheme, identifier) order, independent of the enumeration order of instances.", "quantifier": "every set of instances and contexts, every enumeration order", "why_tests_cant": "As C07.", "anchors": ["pkg/renderables/contexts.go:sortedEntities", "pkg/renderables/contexts.go:dedupEntities"]}
{"id": "C09", "title": "Every slug in the catalog opens a renderable", "statement": "For every subject and role URI, the slug listed in the catalog's Networks is found by MarshalRenderable on the same hydratable (it never answers 'object not found'), and what it opens has the same slug.", "quantifier": "every hydratable, every entry of Networks", "why_tests_cant": "Quantifies over all folders; involves a real hash function.", "anchors": ["pkg/renderables/catalog.go:MarshalCatalog", "pkg/renderables/renderable.go:MarshalRenderable"]}
{"id": "C10", "title": "A slug opens the relationship set and subject it was issued for", "statement": "The slug issued for (subject, relationship set) opens exactly that subject and relationship set.", "quantifier": "every hydratable, every pair of subject and relationship set", "why_tests_cant": "Collisions are rare and input dependent.", "anchors": ["pkg/renderables/catalog.go:hash", "pkg/renderables/renderable.go:MarshalRenderable"]}
{"id": "C11", "title": "A slug is the lower-case hex FNV-1a-128 of entity, role and title", "statement": "Every slug is a 32 character lower-case hexadecimal string, equal to the 128-bit FNV-1a hash of entity string, role URI and title concatenated, and so is the same in every process and run.", "quantifier": "all strings", "why_tests_cant": "Format must hold for all byte strings.", "anchors": ["pkg/renderables/catalog.go:hash"]}
{"id": "C12", "title": "A missing entity-name directory does not break rendering", "statement": "If the entity is not listed in names.json, or names.json cannot be read, catalog and renderable both still succeed and name the entity '<scheme>/<identifier>'.", "quantifier": "every hydratable and every content (or absence) of names.json", "why_tests_cant": "Interaction of two independent error paths.", "anchors": ["pkg/renderables/renderable.go:MarshalRenderable", "pkg/renderables/catalog.go:MarshalCatalog", "pkg/hydratables/query.go:EntityQuery"]}
{"id": "C13", "title": "The catalog names the document exactly for inline folders", "statement": "Catalog.DocumentName is the entry file name if the folder is an inline XBRL document and empty otherwise, and every Networks entry maps each role URI of a relationship set to a slug.", "quantifier": "every hydratable", "why_tests_cant": "All folders.", "anchors": ["pkg/renderables/catalog.go:MarshalCatalog"]}
{"id": "C14", "title": "Every fact of a displayed concept has its column", "statement": "In each grid, for every fact of the subject whose concept is one of the grid's non-abstract row concepts, there is a column for the fact's context (completeness of the column set).", "quantifier": "every hydratable with resolvable context references, subject and list of row concepts", "why_tests_cant": "Completeness over all facts and contexts.", "anchors": ["pkg/renderables/contexts.go:getRelevantContexts"]}
{"id": "C15", "title": "Columns are only contexts of the subject that hold a fact, each once", "statement": "Every column of a grid is the context of some fact of the subject on one of the grid's non-abstract row concepts; no context of one instance gets two columns.", "quantifier": "every hydratable, subject, list of row concepts", "why_tests_cant": "Soundness over all inputs.", "anchors": ["pkg/renderables/contexts.go:getRelevantContexts"]}
{"id": "C16", "title": "Columns are ordered by period, then by number of dimensions", "statement": "The columns of a grid are a permutation of the relevant contexts, in nondecreasing period string order and, within a period, nondecreasing number of dimension members; ties broken by the first member; equal columns keep their order.", "quantifier": "every list of relevant contexts", "why_tests_cant": "Sortedness and stability for every list.", "anchors": ["pkg/renderables/contexts.go:sortContexts"]}
{"id": "C17", "title": "Grids are rectangular", "statement": "Every factual quadrant has one row per row concept and every row one cell (and one footnote cell) per column; if there are no rows or no columns the quadrant is empty. Every contextual member row has one cell per column, and there are as many rows as void-quadrant rows.", "quantifier": "every hydratable, row list and column list", "why_tests_cant": "All sizes.", "anchors": ["pkg/renderables/factualQuadrant.go:getFactualQuadrant", "pkg/renderables/contextualQuadrant.go:getMemberGridAndVoidQuadrant"]}
{"id": "C18", "title": "Each cell shows the first fact with the row's concept and the column's context", "statement": "Cell (i,j) of a factual quadrant is the rendering of the first fact, in the instance's fact order, whose concept is row i's and whose context is column j's; it is the empty rendering exactly if there is no such fact.", "quantifier": "every hydratable, rows, columns, cell; with several instances, every order in which they are visited", "why_tests_cant": "All facts and cells.", "anchors": ["pkg/renderables/factualQuadrant.go:getFactualQuadrant", "pkg/hydratables/fact.go:FindFact"]}
{"id": "C19", "title": "Footnote numbers point at the right footnote", "statement": "In every rendered grid, a cell's footnote number k refers to entry k of the grid's footnote list, and that entry is a footnote of that cell's fact.", "quantifier": "every hydratable, rows, columns and every map iteration order", "why_tests_cant": "Depends on Go's random map iteration order, and only shows with two or more footnotes.", "anchors": ["pkg/renderables/factualQuadrant.go:getFactualQuadrant"]}
{"id": "C20", "title": "The footnote list holds every footnote of every displayed fact once", "statement": "The footnote list of a grid is, in some order, the footnotes of all displayed facts, each footnote id once; every footnote number in the grid is between 1 and the length of the list.", "quantifier": "every hydratable, rows, columns, iteration order", "why_tests_cant": "All grids and orders.", "anchors": ["pkg/renderables/factualQuadrant.go:getFactualQuadrant", "pkg/hydratables/fact.go:GetFootnotes"]}
{"id": "C21", "title": "A fact with a dangling context reference cannot crash rendering", "statement": "Computing the columns of a grid terminates normally even if a fact refers to a context that the instance does not have (or that was dropped as malformed).", "quantifier": "every hydratable", "why_tests_cant": "Malformed filings are unbounded; the crash takes the process down since it happens in a spawned goroutine.", "anchors": ["pkg/renderables/contexts.go:getRelevantContexts", "pkg/renderables/contexts.go:getContext"]}
{"id": "C22", "title": "Abstract and unknown concepts never create columns", "statement": "Row concepts that are abstract or cannot be resolved contribute no column.", "quantifier": "every hydratable, every list of hrefs", "why_tests_cant": "All lists.", "anchors": ["pkg/renderables/contexts.go:getRelevantContexts", "pkg/hydratables/query.go:HashQuery"]}
{"id": "C23", "title": "The presentation outline is the depth-first listing of the network", "statement": "The indented labels of a presentation grid list every node of the role's presentation tree exactly once in depth-first order, siblings in nondecreasing arc order (ties in tree order), children one level deeper than their parent, roots at level 0, each with the href of its locator.", "quantifier": "every list of presentation linkbases in every iteration order, every tree whose orders are numbers (not NaN), every locator table", "why_tests_cant": "All tree shapes and depths.", "anchors": ["pkg/renderables/presentationGrid.go:getIndentedLabels"]}
{"id": "C24", "title": "Locators resolve to the first usable href of the role's link", "statement": "A locator label of an extended link resolves to the href of the first locator with that label and an href containing '#' in the links of the role, provided the role is declared by a roleRef; otherwise to '#'+label.", "quantifier": "every linkbase, role, label", "why_tests_cant": "All linkbases.", "anchors": ["pkg/renderables/concepts.go"]}
{"id": "C25", "title": "Each summation item lists exactly its calculation arcs", "statement": "In the calculation grid of a role there is exactly one summation item per source concept, among those the taxonomy resolves, of the summation-item arcs of the first link of that role in the first linkbase that has one; its contributing concepts are the targets, among those the taxonomy resolves, of exactly the arcs of that source, sorted by arc order (stable); each carries its label, balance, sign and scale and is flagged as a summation item iff it is itself a source. Its columns, cells and member rows are those of the grid with these concepts as rows and the source last.", "quantifier": "every set of calculation linkbases, label linkbases, instances, every map iteration order (arc orders not NaN)", "why_tests_cant": "All arc sets.", "anchors": ["pkg/renderables/calculationGrid.go:getSummationItems"]}
{"id": "C26", "title": "The sign and scale shown for a contribution match the arc weight", "statement": "A contributing concept's sign is '-' iff the arc weight is negative, '+' otherwise, and its scale is the absolute weight correctly rounded to one decimal.", "quantifier": "every weight value", "why_tests_cant": "All binary64 values.", "anchors": ["pkg/renderables/calculationGrid.go:getSummationItems"]}
{"id": "C27", "title": "The list of summation items does not depend on map iteration order", "statement": "The summation items of a calculation grid appear in strictly increasing href order, so the list of items is the same whatever order Go iterates the arc map in.", "quantifier": "every calculation link and every iteration order", "why_tests_cant": "Random map order.", "anchors": ["pkg/renderables/calculationGrid.go:getSummationItems"]}
{"id": "C28", "title": "The dimension relationship graph is closed and faithful", "statement": "The links of a dimension relationship set are, in order, one per arc of the links of the role in the linkbases that declare it: source and target are what the arc's locators stand for (the target in the arc's targetRole if it has one), with the connection kind, order, closed/usable flags and target role of the arc. The nodes are exactly the endpoints, each once, strictly sorted by href, with their labels, and do not depend on map iteration order.", "quantifier": "every definition linkbase and role", "why_tests_cant": "All arc sets.", "anchors": ["pkg/renderables/dimensionRelationshipSet.go:getDRS"]}
{"id": "C29", "title": "Effective domains are canonical", "statement": "Each effective domain is strictly sorted by href with defaults before members and usable before struck-through entries for the same href (so no entry is repeated), every entry has the label of its concept, it is empty when the primary item both has and excludes the same hypercube with the dimension, and empty when the item has no hypercube with the dimension.", "quantifier": "every network of hypercubes, dimensions and members", "why_tests_cant": "All networks.", "anchors": ["pkg/renderables/effectiveDomainGrid.go:getEffectiveDomain"]}
{"id": "C30", "title": "Domain-member roots are split into primary items and explicit domains without loss", "statement": "The roots of the domain-member network are split, in order and without loss or overlap, into explicit domains (those whose locator is the target of a dimension-domain or dimension-default arc) and primary items (the others).", "quantifier": "every definition link", "why_tests_cant": "All trees.", "anchors": ["pkg/renderables/effectiveDomainGrid.go:getPrimaryItemNetworkAndExplicitDomainNetwork"]}
{"id": "C31", "title": "Every explicit dimension used by a column has a row that shows the column's member", "statement": "For every explicit dimension member of a displayed column there is a row of the contextual member grid for its dimension, and the row's cell in that column is that member's label.", "quantifier": "every list of columns in which a context uses a dimension at most once, and every map iteration order", "why_tests_cant": "All contexts.", "anchors": ["pkg/renderables/contextualQuadrant.go:getMemberGridAndVoidQuadrant"]}
{"id": "C32", "title": "Typed-domain rows are attributed to their own dimension", "statement": "Each void-quadrant row for a typed domain names the dimension under which the typed member was reported.", "quantifier": "every list of columns with typed members", "why_tests_cant": "Needs two typed dimensions.", "anchors": ["pkg/renderables/contextualQuadrant.go:getVoidQuadrant"]}
{"id": "C33", "title": "A renderable offers the label roles and languages of all three grids", "statement": "The LabelRoles and Lang of a renderable are the (deduplicated) union of those of the presentation, definition and calculation grids, under every schedule of the three goroutines that compute them.", "quantifier": "every result of the three grids and every interleaving", "why_tests_cant": "Data race: depends on scheduling.", "anchors": ["pkg/renderables/renderable.go:MarshalRenderable"]}
{"id": "C34", "title": "Labels: identity label always present, later labels win", "statement": "GetLabel(href) always contains the href as pure label and '#fragment' as brief label when the href has a '#'; for every role and supported language the text is that of the last matching label resource reachable by a concept-label arc from a locator of that href; nothing else is present.", "quantifier": "every set of label linkbases, every href", "why_tests_cant": "All linkbases.", "anchors": ["pkg/renderables/label.go:GetLabel"]}
{"id": "C35", "title": "English labels tagged 'en' are shown", "statement": "A concept label with xml:lang='en' (as well as 'en-US') is offered as an English label.", "quantifier": "every label linkbase", "why_tests_cant": "Language tags vary.", "anchors": ["pkg/renderables/label.go:appendLanguage"]}
{"id": "C36", "title": "The language list of a grid covers every concept's languages", "statement": "The languages offered for a grid include every language in which some displayed concept has a label.", "quantifier": "every list of label packs", "why_tests_cant": "All lists.", "anchors": ["pkg/renderables/labelPack.go:reduce", "pkg/renderables/labelPack.go:destruct"]}
{"id": "C37", "title": "Exactly the well-formed facts are loaded, unchanged", "statement": "The facts of an instance are exactly those fact elements with a contextRef and an href-resolvable concept, with id, contextRef, unitRef, nil flag, precision and content taken from the element; they are ordered by id, equal ids in document order.", "quantifier": "every instance document", "why_tests_cant": "All fact lists.", "anchors": ["pkg/hydratables/instance.go:hydrateFacts"]}
{"id": "C38", "title": "Decimals are read exactly", "statement": "decimals='INF' is reported as exact, decimals='n' as n decimals, and an absent or malformed decimals as 'no precision'; the three never get confused.", "quantifier": "every decimals string", "why_tests_cant": "All integers.", "anchors": ["pkg/hydratables/instance.go:hydrateFacts", "pkg/hydratables/precision.go"]}
{"id": "C39", "title": "Exactly the well-formed contexts are loaded", "statement": "Contexts without id or entity identifier are dropped, all others kept with scheme, identifier, period and resolvable dimension members, in id order.", "quantifier": "every instance document", "why_tests_cant": "All contexts.", "anchors": ["pkg/hydratables/instance.go:hydrateContexts"]}
{"id": "C40", "title": "Units are loaded with numerator and denominator", "statement": "A unit with a measure is loaded with that measure as numerator and no denominator; a unit with a divide with both; others are dropped; order is by id.", "quantifier": "every instance document", "why_tests_cant": "All units.", "anchors": ["pkg/hydratables/instance.go:hydrateUnits"]}
{"id": "C41", "title": "Every footnote of a fact is found", "statement": "GetFootnotes(fact) returns the footnotes linked to the fact by fact-footnote arcs in any footnote link of the instance.", "quantifier": "every instance document", "why_tests_cant": "Needs several footnote links.", "anchors": ["pkg/hydratables/fact.go:GetFootnotes"]}
{"id": "C42", "title": "The unit of a fact resolves to its registry entries", "statement": "FindMeasurement returns the unit registry entry of the fact's numerator measure and, for divided units, the entry of its denominator measure.", "quantifier": "every unit registry, instance and fact", "why_tests_cant": "All units.", "anchors": ["pkg/hydratables/measurement.go:FindMeasurement"]}
{"id": "C43", "title": "Typed members keep the nesting of their elements", "statement": "The arcs of a typed member link each element of the typed member's content to its own parent element (or the dimension's domain for the outermost).", "quantifier": "every typed member content", "why_tests_cant": "All XML trees.", "anchors": ["pkg/hydratables/instance.go:hydrateTypedMembers"]}
{"id": "C44", "title": "Exactly the well-formed concepts are loaded", "statement": "The concepts of a schema are exactly its element declarations with nonempty id, name and type, in order, with namespace, substitution group, period type, abstract flag, type and typed domain reference taken from the declaration.", "quantifier": "every schema document", "why_tests_cant": "All schemas.", "anchors": ["pkg/hydratables/schema.go:hydrateConcepts"]}
{"id": "C45", "title": "Role types of all annotations are loaded", "statement": "Every role type with a roleURI and a definition declared in any annotation of a schema is available as relationship set.", "quantifier": "every schema document", "why_tests_cant": "Needs several annotations.", "anchors": ["pkg/hydratables/schema.go:hydrateAnnotation"]}
{"id": "C46", "title": "Exactly the well-formed arcs and locators are loaded", "statement": "A linkbase's links, locators and arcs are kept exactly if they carry the required XLink attributes, in document order, with the attribute values; an unreadable order sorts last; an unreadable weight counts as zero.", "quantifier": "every linkbase document", "why_tests_cant": "All linkbases.", "anchors": ["pkg/hydratables/presentationLinkbase.go", "pkg/hydratables/calculationLinkbase.go", "pkg/hydratables/definitionLinkbase.go", "pkg/hydratables/labelLinkbase.go"]}
{"id": "C47", "title": "xbrldt:closed and xbrldt:usable are honoured", "statement": "A definition arc's Closed and Usable flags equal the xbrldt:closed and xbrldt:usable attributes of the arc element, with the XBRL Dimensions defaults (closed=false, usable=true).", "quantifier": "every definition arc", "why_tests_cant": "All attribute values.", "anchors": ["pkg/hydratables/definitionLinkbase.go"]}
{"id": "C48", "title": "Links with the same role are merged without loss", "statement": "After hydration a linkbase has exactly one link per role that occurs, whose locators and arcs are the concatenation in document order of those of all links with that role, whatever the map iteration order.", "quantifier": "every list of links, every map iteration order", "why_tests_cant": "Random map order.", "anchors": ["pkg/hydratables/presentationLinkbase.go:dedupPresentationLink", "pkg/hydratables/calculationLinkbase.go", "pkg/hydratables/definitionLinkbase.go"]}
{"id": "C49", "title": "Concept names and hrefs are inverse lookups", "statement": "NameQuery(ns, local) yields the href and concept of the first declaration of that name in the schema the folder maps ns to; HashQuery(href) yields the first declaration with that id. In schemas whose ids are unique (as XML requires) and whose location contains no '#', HashQuery of the href NameQuery yields gives the same concept (and the same namespace if the folder maps no other namespace to that schema), and conversely with unique names.", "quantifier": "every hydratable and every qualified name", "why_tests_cant": "All schemas.", "anchors": ["pkg/hydratables/query.go:NameQuery", "pkg/hydratables/query.go:HashQuery"]}
{"id": "C50", "title": "The month count of a duration is its number of calendar months", "statement": "For a duration of at least 30 days the number of months shown is the number of calendar months it touches (12*(y2-y1)+(m2-m1)+1); shorter or reversed durations count as no month.", "quantifier": "every pair of calendar dates", "why_tests_cant": "Millions of date pairs, leap years.", "anchors": ["pkg/renderables/formatPeriod.go:monthCount"]}
{"id": "C51", "title": "Period labels fall back to the ISO period", "statement": "A period label that is not a date or a '/'-separated pair of dates is shown unchanged in every language; a date is shown as that date in words; a duration of at least thirty days as its number of months ended at the end date. (Labels starting with '/', which no context period produces, are excluded.)", "quantifier": "every string, every language", "why_tests_cant": "All strings.", "anchors": ["pkg/renderables/formatPeriod.go", "pkg/renderables/english.go", "pkg/renderables/spanish.go"]}
{"id": "C52", "title": "Every period header has a text in every offered language", "statement": "After formatting, each period header contains, for every offered language, the text of its ISO period in that language; its ISO text and the texts in languages that are not offered are unchanged.", "quantifier": "every header list and language list", "why_tests_cant": "All sizes.", "anchors": ["pkg/renderables/formatPeriod.go:formatRelevantPeriod"]}
{"id": "C53", "title": "Text blocks never crash the renderer", "statement": "Rendering a text block terminates without panic for every HTML token stream.", "quantifier": "every token stream", "why_tests_cant": "All token streams, including unbalanced ones.", "anchors": ["pkg/renderables/textBlock.go:renderTextBlock"]}
{"id": "C54", "title": "Expanded table cells stay balanced", "statement": "If the table cell tags (td, or th) of a text block are properly nested and its text contains no '<', the cell tags of the rendered text block are properly nested, and as many cells are opened and closed as the cells of the text block span columns.", "quantifier": "every token stream with balanced cell tags", "why_tests_cant": "All streams and nestings.", "anchors": ["pkg/renderables/textBlock.go:colSpanHelper", "pkg/renderables/textBlock.go:colSpan2Helper"]}
{"id": "C55", "title": "Rendered text blocks contain only table markup", "statement": "The inner HTML rendered for a text block contains no markup other than table, tr, th, td and br tags (and images).", "quantifier": "every text block content", "why_tests_cant": "Injection is adversarial input.", "anchors": ["pkg/renderables/textBlock.go:renderTextBlock"]}
{"id": "C56", "title": "The response cache is transparent for successful responses", "statement": "For every history of catalog, renderable and expressable requests and background cache writes, in every interleaving, a request whose uncached answer is a success gets exactly that answer.", "quantifier": "every history, every interleaving of requests and cache writes", "why_tests_cant": "Schedules and histories are unbounded.", "anchors": ["pkg/cache/cache.go"]}
{"id": "C57", "title": "A failing request keeps failing the same way", "statement": "A request that fails with an error keeps being answered with an error when it is repeated while files are unchanged.", "quantifier": "every history of requests", "why_tests_cant": "History dependent.", "anchors": ["pkg/cache/cache.go:MarshalRenderable", "pkg/cache/cache.go:MarshalCatalog", "pkg/cache/cache.go:MarshalExpressable", "pkg/cache/cache.go:hydratable"]}
{"id": "C58", "title": "Different requests never share a cache entry", "statement": "Two requests for different resources use different cache keys.", "quantifier": "every pair of requests", "why_tests_cant": "All strings.", "anchors": ["pkg/cache/cache.go"]}
{"id": "C59", "title": "No request can wedge the server", "statement": "After any sequence of requests, further requests can still be answered and their results cached: no request leaves the cache lock held.", "quantifier": "every history of requests, every schedule", "why_tests_cant": "History and schedule dependent.", "anchors": ["pkg/cache/cache.go:hydratable", "cmd/telefacts/main.go"]}
{"id": "C60", "title": "Dry mode neither reads nor writes the cache", "statement": "With dry mode on, every request is computed afresh and the cache content is never changed.", "quantifier": "every history", "why_tests_cant": "All histories.", "anchors": ["pkg/cache/cache.go"]}
{"id": "C61", "title": "HTTP status reflects the outcome", "statement": "The catalog, renderable and fact handlers answer 500 for a non-GET method, 400 for a missing id, hash, name or contextref, 500 with the message when the service fails, and 200 with exactly the service's bytes otherwise.", "quantifier": "every request, every behaviour of the service", "why_tests_cant": "All requests.", "anchors": ["internal/web/web.go"]}
{"id": "C62", "title": "JSON responses are labelled as JSON", "statement": "A successful catalog, renderable or fact response carries the Content-Type header application/json that the handler sets.", "quantifier": "every successful request", "why_tests_cant": "Header ordering in net/http.", "anchors": ["internal/web/web.go"]}
{"id": "C63", "title": "The inline document is served verbatim under its own name", "statement": "For an inline folder (entry file ending in .xhtml or .htm), requesting the entry file name as slug returns exactly the document bytes held for the folder, and a request with any other slug is never answered with them unless the renderable service itself produces them, on every history and schedule.", "quantifier": "every folder, every slug, every history and schedule of requests", "why_tests_cant": "All folders.", "anchors": ["pkg/cache/cache.go:MarshalRenderable"]}
{"id": "C64", "title": "Taxonomy URLs stay inside the global taxonomy set", "statement": "The file a taxonomy URL is mapped to lies inside <gts>/concepts/<scheme>/<host>.", "quantifier": "every URL", "why_tests_cant": "Adversarial URLs.", "anchors": ["pkg/serializables/global.go:UrlToFilename", "pkg/serializables/global.go:DiscoverGlobalFile"]}
{"id": "C65", "title": "A keyed folder is created at most once", "statement": "Among any number of concurrent NewFolder calls with the same key, at most one succeeds, all get the same id, and an existing folder is never modified.", "quantifier": "every number of callers, every interleaving", "why_tests_cant": "Schedules.", "anchors": ["pkg/serializables/underscore.go:NewFolder"]}
{"id": "C66", "title": "A crash during NewFolder leaves no half-made folder", "statement": "If the process stops at any point of NewFolder, a later NewFolder with the same key either succeeds or finds a complete folder.", "quantifier": "every crash point", "why_tests_cant": "Crash points.", "anchors": ["pkg/serializables/underscore.go:NewFolder"]}
{"id": "C67", "title": "The entry file name of a new folder is read back", "statement": "After a successful NewFolder(key, u), GetEntryFileName(id) is u's entry file name.", "quantifier": "every key and entry file name", "why_tests_cant": "All strings.", "anchors": ["pkg/serializables/underscore.go:NewFolder", "pkg/serializables/underscore.go:GetEntryFileName"]}
{"id": "C68", "title": "Discovery loads exactly the documents reachable from the entry point, on every schedule", "statement": "Discover's schemas and linkbases are exactly the local documents reachable from the entry document by schemaRef, include, import and linkbaseRef, with their decoded content, whatever the goroutine schedule.", "quantifier": "every acyclic set of local files, every schedule", "why_tests_cant": "Goroutine schedules and graphs are unbounded.", "anchors": ["pkg/serializables/folder.go:Discover", "pkg/serializables/folder.go"]}
{"id": "C69", "title": "Discovery terminates on cyclic schemas", "statement": "Discover terminates when local schemas import or include each other in a cycle.", "quantifier": "every set of local files", "why_tests_cant": "Non-termination.", "anchors": ["pkg/serializables/folder.go:importSchema", "pkg/serializables/folder.go:includeSchema"]}
{"id": "C70", "title": "Concepts of an including schema stay resolvable", "statement": "After discovery, NameQuery finds every concept of a discovered local schema by its target namespace and name, also when the schema includes another one.", "quantifier": "every set of local files", "why_tests_cant": "Schema composition.", "anchors": ["pkg/serializables/folder.go:includeSchema", "pkg/hydratables/query.go:NameQuery"]}
{"id": "C71", "title": "Inlining images changes only image sources", "statement": "TransformInlineImages changes nothing but the src attributes of img elements whose file name is one of the folder's images, which become that image's data URI; if the document cannot be parsed or written it is returned unchanged.", "quantifier": "every HTML tree and image set", "why_tests_cant": "All trees.", "anchors": ["pkg/serializables/image.go:TransformInlineImages"]}
{"id": "C72", "title": "Document hydration is independent of goroutine scheduling", "statement": "For an inline document whose facts all have a prefixed name and a contextRef (as Inline XBRL requires), HydrateDocument gives the same two maps under every goroutine schedule when all prefixes are declared, gives an error under every schedule when some prefix is not, and no schedule gets stuck.", "quantifier": "every document and every schedule", "why_tests_cant": "Schedules.", "anchors": ["pkg/hydratables/document.go:HydrateDocument"]}
{"id": "C73", "title": "Asking for a fact never crashes the service", "statement": "MarshalExpressable answers, with a value, nothing or an error, for every folder, fact name and context reference.", "quantifier": "every hydratable, name and contextref", "why_tests_cant": "Adversarial requests.", "anchors": ["pkg/renderables/expressable.go:MarshalExpressable"]}
{"id": "C74", "title": "A fact lookup returns the requested fact", "statement": "For an inline folder with its one extracted instance, and a resolvable fact name and context, the answer describes the first fact with that concept and context: its href, labels, period (in every language of its labels), expression and footnotes. Nothing is answered exactly for unknown names and contexts and missing facts.", "quantifier": "every hydratable, name and contextref", "why_tests_cant": "All folders.", "anchors": ["pkg/renderables/expressable.go:MarshalExpressable"]}
{"id": "C75", "title": "Facts are rendered in exactly the supported requested languages", "statement": "A rendered fact has an entry for each requested language that is English, Español or pure, and no other; a missing fact has an empty pure entry, a nil fact a pure entry 'nil'.", "quantifier": "every fact and language list", "why_tests_cant": "All language lists.", "anchors": ["pkg/renderables/fact.go:render"]}
{"id": "C76", "title": "Stack is LIFO and copies are independent", "statement": "Pop returns the most recently pushed element, fails on an empty stack, and pushing to or popping from a copy leaves the original as it was.", "quantifier": "every sequence of operations", "why_tests_cant": "Sequences are unbounded.", "anchors": ["pkg/hydratables/schema.go:Stack"]}
{"id": "C77", "title": "Merged typed-domain trees list every path once", "statement": "Merging the typed-member trees of all columns gives a tree whose paths are exactly the paths of the merged trees, with no two siblings alike, the top nodes in order of first mention.", "quantifier": "every list of typed-member trees that each hold at least one path", "why_tests_cant": "All trees.", "anchors": ["pkg/renderables/contextualQuadrant.go:reduceTrees", "pkg/renderables/contextualQuadrant.go:dedupNodes"]}
{"id": "C78", "title": "The unit registry returns the last complete entry for a unit", "statement": "After loading the unit registry, looking up (namespace, unit id) gives the last complete entry for it and nothing for others.", "quantifier": "every registry document", "why_tests_cant": "All registries.", "anchors": ["pkg/hydratables/measurement.go:mapMeasurements", "pkg/hydratables/measurement.go:queryUTR"]}
{"id": "C79", "title": "Hydration is all or nothing", "statement": "Hydrate returns either an error and no object or a complete object with every part hydrated.", "quantifier": "every folder", "why_tests_cant": "All failure positions.", "anchors": ["pkg/hydratables/hydratable.go:Hydrate"]}
{"id": "C80", "title": "Entity names fall back to scheme/identifier", "statement": "EntityQuery(scheme, id) gives the configured display name if there is one, otherwise scheme/id; it fails only if the name list cannot be read.", "quantifier": "all name lists, schemes and identifiers", "why_tests_cant": "ranges over all name lists and identifiers, including absent schemes and absent identifiers", "anchors": ["pkg/hydratables/query.go: EntityQuery", "pkg/hydratables/global.go: HydrateEntityNames"]}
{"id": "C81", "title": "Typed member contents never crash loading", "statement": "Loading an instance never crashes because of what a typedMember element contains: whatever elements, texts and comments are inside it, declared in the taxonomy or not, hydratables.HydrateInstance returns.", "quantifier": "all taxonomies and all well-formed XML contents of a typedMember element", "why_tests_cant": "The contents are arbitrary nested XML over names that may or may not be declared; a test tries a few.", "anchors": ["pkg/hydratables/instance.go: hydrateTypedMembers", "pkg/hydratables/query.go: NameQuery, HashQuery"]}
{"id": "C82", "title": "Typed member values belong to their own element", "statement": "The value stored for an element inside a typed member is that element's own text with surrounding white space removed (the last nonblank text if there are several); text outside all elements is stored for the dimension itself; no other value is stored.", "quantifier": "all taxonomies, all nested typed member contents with declared element names", "why_tests_cant": "Attribution of text depends on the nesting of start and end tags, of unbounded depth; tests cover a couple of shapes.", "anchors": ["pkg/hydratables/instance.go: hydrateTypedMembers"]}
{"id": "C83", "title": "A malformed inline fact cannot crash the process", "statement": "HydrateDocument returns a document or an error whatever attributes the ix:nonNumeric and ix:nonFraction elements have, including none.", "quantifier": "every inline document, every goroutine schedule", "why_tests_cant": "A panic in a goroutine kills the whole server; all attribute lists and schedules matter.", "anchors": ["pkg/hydratables/document.go: HydrateDocument", "pkg/attr/name.go: ProvideXmlName"]}
{"id": "C84", "title": "Text blocks keep their text", "statement": "The text of a rendered text block (what is outside of its tags) is the text of the source, in order: every text run trimmed of white space and followed by one space, blank runs left out. (For text without '<', see C55.)", "quantifier": "every token stream whose text contains no '<'", "why_tests_cant": "All token streams.", "anchors": ["pkg/renderables/textBlock.go:renderTextBlock"]}
{"id": "C85", "title": "A shown fact carries its value, sign and unit", "statement": "A fact is shown as its raw text if it has no precision or is not a readable number; as its text block if its type says so; as 'error' if its concept is unknown; and otherwise as its digits, in the grouping of the language, with the currency symbol before, a percent sign exactly if the type is a percentage, and the unit name (if there is no symbol) and the denominator after.", "quantifier": "every fact, unit, concept and language list", "why_tests_cant": "All combinations of types, units and languages.", "anchors": ["pkg/renderables/english.go:renderEnglishFact", "pkg/renderables/spanish.go:renderSpanishFact", "pkg/renderables/fact.go:render"]}
{"id": "C86", "title": "The calculation grid shows the same facts whatever the map iteration order", "statement": "Two renderings of the same calculation grid, with Go iterating its maps in different orders, show every fact in the same languages and with the same text.", "quantifier": "every calculation link, label linkbase, instance and pair of iteration orders", "why_tests_cant": "Random map order, all label sets.", "anchors": ["pkg/renderables/calculationGrid.go:getSummationItems", "pkg/renderables/labelPack.go:reduce"]}
{"id": "C87", "title": "Only dimension-default arcs are shown as defaults", "statement": "In a dimension relationship set a connection is marked as default exactly if its arc is a dimension-default arc.", "quantifier": "every definition linkbase, role and arc", "why_tests_cant": "All arc sets.", "anchors": ["pkg/renderables/dimensionRelationshipSet.go:getDRS"]}
{"id": "C88", "title": "An effective domain lists the default and the members of its dimension", "statement": "The effective domain of a primary item and a dimension lists the defaults and domain members of that dimension, and of no other dimension, usable for hypercubes the item has and struck through for those it excludes, where items inherit the hypercubes of the items above them.", "quantifier": "every definition link, item and dimension", "why_tests_cant": "All networks of hypercubes, dimensions and members.", "anchors": ["pkg/renderables/effectiveDomainGrid.go:getEffectiveDomain"]}
{"id": "C89", "title": "A definition grid has one root domain per primary-item root", "statement": "The root domains of a role are, in order, one per primary-item root of the domain-member network of each of its links; each lists the items below the root depth first with their indentation and labels, an effective domain per (root or item) row and dimension column, and the columns, facts, footnotes and dimension rows of the grid whose rows are the root and its items.", "quantifier": "every set of definition linkbases, role, entity and instance", "why_tests_cant": "All networks.", "anchors": ["pkg/renderables/effectiveDomainGrid.go:getRootDomains", "pkg/renderables/definitionGrid.go:dGrid"]}
{"id": "C90", "title": "The dimensions of a root domain are those of its link", "statement": "The dimension columns of a root domain are exactly the targets of the hypercube-dimension arcs of its link, each once.", "quantifier": "every set of definition linkbases and role", "why_tests_cant": "Depends on which other linkbases are loaded.", "anchors": ["pkg/renderables/effectiveDomainGrid.go:getEffectiveDimensions"]}
{"id": "C91", "title": "A definition grid offers every label role it shows", "statement": "The label roles offered for a definition grid include every label role of the concepts it shows: roots, items, dimensions and effective members.", "quantifier": "every set of linkbases and labels", "why_tests_cant": "All label sets.", "anchors": ["pkg/renderables/effectiveDomainGrid.go:getRootDomains", "pkg/renderables/effectiveDomainGrid.go:getEffectiveDomain"]}
{"id": "C92", "title": "A fact is shown in every supported language the renderable offers", "statement": "If a renderable offers a language in its list of languages and that language is supported (Unlabelled, en or es), every fact shown in any of its grids has a text in that language.", "quantifier": "every three grids, every set of labels and every schedule of the goroutines", "why_tests_cant": "Depends on which grid contributes which language, for all label sets.", "anchors": ["pkg/renderables/renderable.go:MarshalRenderable", "pkg/renderables/presentationGrid.go:pGrid", "pkg/renderables/fact.go:render"]}
{"id": "C93", "title": "A fact answer lists the dimensions of its context", "statement": "The answer to a request for a fact has one row per explicit dimension of the fact's context, showing the member and its labels, and no row for anything but a dimension of that context.", "quantifier": "every instance, fact and set of other contexts", "why_tests_cant": "Depends on all other contexts in which the concept is reported.", "anchors": ["pkg/renderables/expressable.go:MarshalExpressable", "pkg/renderables/contextualQuadrant.go:getVoidQuadrant", "pkg/renderables/contexts.go:getRelevantContexts"]}
{"id": "C94", "title": "The cache of global taxonomy files is transparent", "statement": "Asking for a global schema, the entity names or the unit type registry, any number of times and interleaved with any other requests, gives what an uncached computation gives, errors included.", "quantifier": "every history and every schedule of requests", "why_tests_cant": "Histories and schedules are unbounded.", "anchors": ["pkg/hydratables/global.go:HydrateGlobalSchema", "pkg/hydratables/global.go:HydrateEntityNames", "pkg/hydratables/measurement.go:HydrateUnitTypeRegistry"]}
{"id": "C95", "title": "A fact request asks for the fact named in the URL", "statement": "When a fact is requested with a properly percent-encoded name and contextref, the service is asked for exactly that name and contextref.", "quantifier": "every request, every name and contextref, every way to percent-encode them", "why_tests_cant": "All strings and all encodings.", "anchors": ["internal/web/web.go:Expressable"]}
{"id": "C96", "title": "A missing taxonomy file is reported", "statement": "DiscoverGlobalFile returns the bytes of the file its URL is mapped to, and an error when there is no such file or it cannot be read.", "quantifier": "every URL, every file system", "why_tests_cant": "All URLs and file system contents.", "anchors": ["pkg/serializables/global.go:DiscoverGlobalFile", "pkg/serializables/global.go:DiscoverGlobalSchema"]}
{"id": "C97", "title": "Different taxonomy documents have different files", "statement": "Two URLs are mapped to the same file only if they have the same scheme, host and path (empty and dot segments not counted).", "quantifier": "every pair of URLs", "why_tests_cant": "All pairs of URLs.", "anchors": ["pkg/serializables/global.go:UrlToFilename"]}
{"id": "C98", "title": "Exactly the JPEG and PNG files of a folder are offered for inlining", "statement": "The images of a discovered folder are exactly its readable files that are detected as JPEG or PNG, each under its own name with the data URI of its own bytes.", "quantifier": "every directory content", "why_tests_cant": "All directories.", "anchors": ["pkg/serializables/folder.go:processImages"]}
{"id": "C99", "title": "Discovering a folder never crashes", "statement": "Discover returns a folder or an error for every content of the folder's files; it does not panic.", "quantifier": "every entry file name, every file content, every set of images", "why_tests_cant": "All file contents.", "anchors": ["pkg/serializables/folder.go:Discover"]}
{"id": "C100", "title": "Which document stands for a namespace does not depend on the schedule", "statement": "Two discoveries of the same files map every namespace to the same document.", "quantifier": "every set of local files, every two schedules", "why_tests_cant": "Goroutine schedules are unbounded.", "anchors": ["pkg/serializables/folder.go:schemaRef", "pkg/serializables/folder.go:includeSchema", "pkg/serializables/folder.go:importSchema"]}
{"id": "C101", "title": "Discovery reads only files of the folder", "statement": "Every local schema and linkbase that discovery loads is a file inside the folder's directory.", "quantifier": "every set of files, every reference in them", "why_tests_cant": "All references.", "anchors": ["pkg/serializables/folder.go:schemaRef", "pkg/serializables/folder.go:includeSchema", "pkg/serializables/folder.go:importSchema", "pkg/serializables/folder.go:linkbaseRefSchema"]}
{"id": "C102", "title": "A discovered folder holds the instance of its entry file", "statement": "If Discover succeeds, the folder holds exactly the instance of the entry file, and the inline document if the entry file is one.", "quantifier": "every entry file name, every set of files, every schedule", "why_tests_cant": "All names and files.", "anchors": ["pkg/serializables/folder.go:Discover"]}
{"id": "C103", "title": "Every reported fact of a document is loaded", "statement": "Starting from the XML tree of an instance document, the loaded facts are exactly the elements that report a known concept: the root's children and the children of tuples.", "quantifier": "every XML tree, every taxonomy", "why_tests_cant": "All trees and all concept names.", "anchors": ["pkg/serializables/instanceFile.go:InstanceFile", "pkg/serializables/instanceFile.go:DecodeInstanceFile", "pkg/hydratables/instance.go:HydrateInstance"]}
{"id": "C104", "title": "Contexts and units are read as the XML says", "statement": "Starting from the XML tree, the loaded contexts and units are exactly the xbrli:context and xbrli:unit children of the root; entity, members, period and measures are those of their xbrli/xbrldi descendants; prefixes mean what is declared where they are used; white space around values does not count.", "quantifier": "every XML tree, every taxonomy", "why_tests_cant": "All trees, prefixes, scopes.", "anchors": ["pkg/serializables/instanceFile.go:InstanceFile", "pkg/hydratables/instance.go:hydrateContexts", "pkg/hydratables/instance.go:hydrateUnits"]}
{"id": "C105", "title": "A label shows the whole text of its element", "statement": "The loaded label links and role references are exactly those of the label linkbase's XML tree, and each label's text is all the text in its element.", "quantifier": "every XML tree", "why_tests_cant": "All label contents, including nested markup.", "anchors": ["pkg/serializables/labelLinkbaseFile.go:LabelLinkbaseFile", "pkg/hydratables/labelLinkbase.go:HydrateLabelLinkbase"]}
{"id": "C106", "title": "Files of another kind are refused", "statement": "A file is decoded as a schema, linkbase, instance or unit registry exactly if it is XML whose root is the element of that name in the namespace of that kind; every other file is refused with an error, never a crash.", "quantifier": "every XML tree, every decoder", "why_tests_cant": "All trees.", "anchors": ["pkg/serializables/schemaFile.go:DecodeSchemaFile", "pkg/serializables/presentationLinkbaseFile.go:DecodePresentationLinkbaseFile", "pkg/serializables/definitionLinkbaseFile.go:DecodeDefinitionLinkbaseFile", "pkg/serializables/calculationLinkbaseFile.go:DecodeCalculationLinkbaseFile", "pkg/serializables/labelLinkbaseFile.go:DecodeLabelLinkbaseFile", "pkg/serializables/instanceFile.go:DecodeInstanceFile", "pkg/serializables/measurement.go:DecodeUnitTypeRegistry"]}
{"id": "C107", "title": "A schema's concepts are its element declarations", "statement": "Starting from the XML tree of a schema, the loaded concepts are exactly the complete xsd:element children of the root, in document order, their QNames resolved with the declarations in scope.", "quantifier": "every XML tree", "why_tests_cant": "All trees and scopes.", "anchors": ["pkg/serializables/schemaFile.go:SchemaFile", "pkg/hydratables/schema.go:HydrateSchema"]}
{"id": "C108", "title": "A linkbase's links are those of its XML", "statement": "Starting from the XML tree of a presentation, definition or calculation linkbase, the loaded links are the extended link:*Link children of the root, with their link:loc and link:*Arc children, merged by role; the role references are the link:roleRef children.", "quantifier": "every XML tree, every map order", "why_tests_cant": "All trees.", "anchors": ["pkg/serializables/presentationLinkbaseFile.go:PresentationLinkbaseFile", "pkg/serializables/definitionLinkbaseFile.go:DefinitionLinkbaseFile", "pkg/serializables/calculationLinkbaseFile.go:CalculationLinkbaseFile", "pkg/hydratables/presentationLinkbase.go:HydratePresentationLinkbase"]}
{"id": "C109", "title": "The unit registry is read as written", "statement": "After loading a registry, a unit is known exactly if the registry's list of units has a complete entry for its namespace and id; what is known is the last such entry, field by field.", "quantifier": "every XML tree, every unit", "why_tests_cant": "All registries.", "anchors": ["pkg/serializables/measurement.go:DecodeUnitTypeRegistry", "pkg/serializables/measurement.go:UnitTypeRegistryFile", "pkg/hydratables/measurement.go:HydrateUnitTypeRegistry"]}
{"id": "C110", "title": "The parts of an inline document are found wherever they are", "statement": "DecodeIxbrlFile gives nil exactly if the file is not XML or has no html element; otherwise the document element is the first html element, and schemaRefs, contexts, units, facts, excludes and footnote relationships are exactly the elements so named below the required ancestors, each once, in document order.", "quantifier": "every XML tree, every schedule of the eight queries", "why_tests_cant": "All trees and nestings.", "anchors": ["pkg/serializables/document.go:DecodeIxbrlFile"]}
{"id": "C111", "title": "All facts of an inline document are known", "statement": "If every inline fact has a name with a prefix in scope and a context, the inline document loads, and the names and contexts it knows are exactly those of its facts.", "quantifier": "every XML tree, every schedule", "why_tests_cant": "All trees, scopes and schedules.", "anchors": ["pkg/serializables/document.go:DecodeIxbrlFile", "pkg/hydratables/document.go:HydrateDocument"]}
{"id": "C112", "title": "A schema's role types are those of its XML", "statement": "The loaded role types of a schema are exactly the link:roleType elements in its annotations' appinfo elements, in document order, with all of the text of their definitions and uses.", "quantifier": "every XML tree", "why_tests_cant": "All trees: any number of annotations, appinfos, role types and any markup in them.", "anchors": ["pkg/serializables/schemaFile.go:SchemaFile", "pkg/hydratables/schema.go:HydrateSchema"]}
{"id": "C113", "title": "Footnotes are read as written", "statement": "The loaded footnote links of an instance are exactly the extended link:footnoteLink children of its root, with their footnotes (and all their markup), locs and arcs, in document order.", "quantifier": "every XML tree", "why_tests_cant": "All trees.", "anchors": ["pkg/serializables/instanceFile.go:InstanceFile", "pkg/hydratables/instance.go:HydrateInstance"]}
{"id": "C114", "title": "A report consists of the documents its instance leads to", "statement": "Whatever is loaded from a folder on disk, its instance is the entry point's, its schemas are exactly those local schemas reached from the instance's schemaRefs through includes and imports, and its linkbases of each kind exactly those local linkbases that the linkbaseRefs of these schemas name with that kind's role.", "quantifier": "every disk (paths to bytes to XML trees), every entry point, every schedule of discovery", "why_tests_cant": "All graphs of documents, and all interleavings of the goroutines that follow them.", "anchors": ["pkg/cache/cache.go:hydratable", "pkg/serializables/folder.go:Discover", "pkg/hydratables/hydratable.go:Hydrate"]}
{"id": "C115", "title": "A report has exactly the facts its instance states", "statement": "A loaded report has exactly one fact for each child element of the instance that has a context and whose name is declared as a concept in a schema of the report for that namespace, with the attributes and content of the element, in order of id.", "quantifier": "every disk, every entry point, every schedule of discovery, every choice of map order", "why_tests_cant": "All reports: the concept may be declared in any document the instance leads to.", "anchors": ["pkg/cache/cache.go:hydratable", "pkg/serializables/folder.go:Discover", "pkg/hydratables/instance.go:HydrateInstance"]}
{"id": "C116", "title": "Every document of a loaded report is as written on disk", "statement": "The concepts, role types, networks, labels, contexts, units and footnotes of a loaded report are those of the XML documents on disk it was discovered from, each under its own name.", "quantifier": "every disk, every entry point, every schedule, every map order", "why_tests_cant": "All reports.", "anchors": ["pkg/cache/cache.go:hydratable", "pkg/hydratables/hydratable.go:Hydrate"]}
{"id": "C117", "title": "An inline report has an index of its inline document", "statement": "A report whose entry point is an inline document has an index with exactly the names and contexts of the inline facts in that document; a report whose entry point is an instance has none.", "quantifier": "every disk, every entry point, every schedule", "why_tests_cant": "All documents and schedules.", "anchors": ["pkg/cache/cache.go:hydratable", "pkg/hydratables/document.go:HydrateDocument", "pkg/serializables/document.go:DecodeIxbrlFile"]}
{"id": "C118", "title": "A well-formed report loads", "statement": "If the entry point's instance is on disk, discovery ends and the report loads.", "quantifier": "every disk, every entry point, every schedule", "why_tests_cant": "Termination over all graphs of documents and all schedules.", "anchors": ["pkg/cache/cache.go:hydratable", "pkg/serializables/folder.go:Discover", "pkg/hydratables/hydratable.go:Hydrate"]}
{"id": "C119", "title": "Every answer is JSON that says what was computed", "statement": "The body of a catalog, of a renderable and of a fact is a JSON text, it denotes one value, and that value has exactly the documented members, each showing the string, number, flag, list or map that was computed, in order.", "quantifier": "every catalog, every renderable, every fact, of any size and with any bytes in its strings", "why_tests_cant": "All values, including strings with control characters, quotes and bytes that are not UTF-8.", "anchors": ["pkg/renderables/catalog.go:MarshalCatalog", "pkg/renderables/renderable.go:MarshalRenderable", "pkg/renderables/expressable.go:MarshalExpressable"]}
{"id": "C120", "title": "The catalog's bytes do not depend on map order", "statement": "Two answers for the same catalog are equal byte for byte, in whatever order Go visits the maps of the report.", "quantifier": "every report and every two orders of its instances, schemas and of any map that is written", "why_tests_cant": "All iteration orders.", "anchors": ["pkg/renderables/catalog.go:MarshalCatalog", "pkg/renderables/labelPack.go:LabelPack"]}
{"id": "C121", "title": "Lists in an answer are lists", "statement": "Where an answer documents a list, a client finds a list, possibly empty, and never null.", "quantifier": "every catalog, every renderable on every schedule, every fact", "why_tests_cant": "Which slices stay nil depends on the data.", "anchors": ["pkg/renderables/renderable.go:MarshalRenderable", "pkg/renderables/calculationGrid.go:cGrid", "pkg/renderables/presentationGrid.go:pGrid"]}
{"id": "C122", "title": "The catalog a client reads lists the roles and the entities in the files on disk", "statement": "The JSON that a GET for the catalog of a loaded folder answers lists exactly the role types declared in the schemas the instance leads to, and exactly the entities of the contexts in the instance, in canonical order.", "quantifier": "every disk, every entry point, every schedule of discovery and loading, every map order, every folder id", "why_tests_cant": "All trees of documents; the whole way from files to bytes.", "anchors": ["internal/web/web.go:Catalog", "pkg/renderables/catalog.go:MarshalCatalog", "pkg/cache/cache.go:hydratable", "pkg/serializables/folder.go:Discover", "pkg/hydratables/schema.go:HydrateSchema"]}
{"id": "C123", "title": "Every address is answered by one endpoint", "statement": "GET /folders/{id} answers the catalog, /folders/{id}/facts a fact and /folders/{id}/{slug} a renderable, with exactly the id and slug in the address; all other addresses, and all other methods, are left to the file server; an address with detours (//, ., ..) is redirected once to the tidy address of the same place.", "quantifier": "every method, path and query, every outcome of the services", "why_tests_cant": "All paths.", "anchors": ["internal/web/web.go:NewRouter"]}
{"id": "C124", "title": "A client can follow the catalog to every renderable", "statement": "If entity names can be read: the catalog a client GETs lists a slug for every entity and role, and GETting the address made of any listed slug answers a renderable of an entity and a relationship set with that slug.", "quantifier": "every report, every map order, every folder id that is a file name, every rendering of the grids", "why_tests_cant": "All reports; the way goes through hashes, JSON and the router twice.", "anchors": ["internal/web/web.go:NewRouter", "internal/web/web.go:Renderable", "pkg/renderables/catalog.go:MarshalCatalog", "pkg/renderables/renderable.go:MarshalRenderable"]}
{"id": "C125", "title": "A client sees the facts of the report, as written, and nothing else", "statement": "For a report on disk that can be loaded and any network a client asks for: in each presentation, definition and calculation grid of the JSON answer, the columns are exactly the contexts (about the entity asked for) of the instance's facts on the grid's row concepts, and each cell shows the fact of the row's concept and the column's context as written in the instance's XML, or is blank if the instance has none.", "quantifier": "every folder on disk, every supported entry point, every map order and goroutine schedule, every slug, every behaviour of the external tree, number and HTML code", "why_tests_cant": "All reports, networks, orders and schedules; the way leads from XML through discovery, hydration and three concurrent grids to JSON.", "anchors": ["pkg/renderables/renderable.go:MarshalRenderable", "pkg/renderables/factualQuadrant.go:getFactualQuadrant", "pkg/renderables/contexts.go:getRelevantContexts", "pkg/serializables/folder.go:Discover", "pkg/hydratables/hydratable.go:Hydrate"]}
{"id": "C126", "title": "A request for a fact of an inline document is answered with that fact", "statement": "For an inline report on disk that can be loaded: the answer to a request for a name and a context id is a fact exactly when the name and the context id occur on facts of the inline document and the instance has a fact of the concept the name denotes, with that context; the answer then gives the concept, the value as written in the instance's XML and the period of the context. Every fact tagged in the inline document can be asked for.", "quantifier": "every folder on disk with an inline entry point, every requested name and context id, every map order and goroutine schedule", "why_tests_cant": "All documents, names and orders; the way leads from the HTML through namespace prefixes and the schemas to the instance and to JSON.", "anchors": ["pkg/renderables/expressable.go:MarshalExpressable", "pkg/hydratables/document.go:HydrateDocument", "pkg/serializables/folder.go:Discover", "pkg/hydratables/hydratable.go:Hydrate"]}
{"id": "C127", "title": "The running server answers with what is on disk", "statement": "Whatever was asked before and however the requests were interleaved: a non-empty successful answer to GET /folders/{id} is a JSON catalog of the report in that folder (its declared networks and the entities of its contexts); a non-empty successful answer to GET /folders/{id}/{slug} is the inline document of that folder under its own name, or the grids of the network the slug stands for, with the facts written in the folder's instance; a non-empty successful answer to GET /folders/{id}/facts gives the fact the two query fields name. A successful answer is never empty.", "quantifier": "every content of the disk, every history of requests to the server and every schedule of its goroutines, every behaviour of the external code", "why_tests_cant": "All histories, schedules and folders: the answer comes from a shared cache filled by concurrent requests, behind it lie discovery, hydration and rendering.", "anchors": ["cmd/telefacts/main.go:setupServer", "internal/web/web.go:NewRouter", "pkg/cache/cache.go:MarshalCatalog", "pkg/cache/cache.go:MarshalRenderable", "pkg/cache/cache.go:MarshalExpressable", "pkg/serializables/folder.go:Discover"]}
{"id": "C128", "title": "Every request to the running server is answered", "statement": "Whatever is on disk: in every history and on every schedule each request for a catalog, a network or a fact is answered after finitely many steps, and no lock is left held.", "quantifier": "every content of the disk, every history of requests, every schedule", "why_tests_cant": "All schedules and all folders, including those whose schemas refer to each other in circles.", "anchors": ["pkg/cache/cache.go:MarshalCatalog", "pkg/serializables/folder.go:Discover", "pkg/serializables/schema.go:discoverSchema", "cmd/telefacts/main.go:setupServer"]}
{"id": "C129", "title": "A client sees each network as drawn in the linkbases", "statement": "The grids of a network list what the report's linkbases draw for it: the rows of the presentation grid are the concepts of the parent-child arcs in outline order, each with its depth and with the labels that the label linkbases give the concept; the totals of the calculation grid are the sources of the summation arcs, each with the targets of its arcs in order and with sign, scale, balance and labels.", "quantifier": "every report on disk, every network of it, every visiting order of the maps and every schedule of the renderer", "why_tests_cant": "All taxonomies: any number of linkbases, links, locators and arcs, spread over any number of files.", "anchors": ["pkg/renderables/presentationGrid.go:getIndentedLabels", "pkg/renderables/calculationGrid.go:getSummationItems", "pkg/renderables/label.go:GetLabel", "pkg/hydratables/presentationLinkbase.go:HydratePresentationLinkbase", "pkg/hydratables/calculationLinkbase.go:HydrateCalculationLinkbase", "pkg/hydratables/labelLinkbase.go:HydrateLabelLinkbase"]}
{"id": "C130", "title": "Displaying a report does not crash the server", "statement": "A request for any network of any report that could be loaded ends with the network or with an error; no goroutine of the renderer panics, so the process and the other clients' requests go on.", "quantifier": "every report on disk, every network asked for, every visiting order of the maps and every schedule of the renderer", "why_tests_cant": "All reports: any combination of facts, contexts, explicit and typed dimensions and linkbases; a panic in one goroutine ends the whole process, and no finite set of filings shows its absence.", "anchors": ["pkg/renderables/renderable.go:MarshalRenderable", "pkg/renderables/contexts.go:getRelevantContexts", "pkg/renderables/contextualQuadrant.go:getVoidQuadrant", "pkg/hydratables/instance.go:HydrateInstance"]}
{"id": "C131", "title": "A request for one report does not take the server down", "statement": "Whatever clients ask for, the server process goes on: a request for one report, whatever is in its files, cannot stop requests for other reports from being answered.", "quantifier": "every set of files on disk, every finite or unfinished history of requests, every interleaving of their goroutines and every visiting order of the maps", "why_tests_cant": "A panic in a goroutine that a handler's code has started is not recovered by net/http and ends the process; whether any of them is reachable depends on all the contents of all files and on every history and schedule.", "anchors": ["pkg/cache/cache.go:MarshalCatalog, MarshalRenderable, MarshalExpressable", "pkg/renderables/renderable.go:MarshalRenderable", "pkg/hydratables/document.go:HydrateDocument", "cmd/telefacts/main.go:setupServer"]}
{"id": "C132", "title": "A folder's answers depend on its own files only", "statement": "What the server answers about a report depends on the files in that report's folder (and the global taxonomy files) only: creating, changing or removing files of other folders changes neither the answers that can be given for it nor whether the process survives them.", "quantifier": "every two file systems that agree on the folder, every request for the folder, every history of requests and every schedule", "why_tests_cant": "Independence of everything outside the folder is a statement about pairs of whole file systems; a test compares two of them, and the references that break it are in the contents of documents.", "anchors": ["pkg/serializables/folder.go:Discover", "pkg/serializables/folder.go:schemaRef", "pkg/cache/cache.go:hydratable", "internal/web/web.go:NewRouter"]}
{"id": "C133", "title": "A client's address leads to one folder below the working directory only", "statement": "Whatever path and query a client sends, and wherever the server has been started, the request is for the directory wd/folders/<id> below the directory given in WD (or the current one), where <id> is a single name that is neither . nor ..; the folders of two different addresses have no file in common.", "quantifier": "every method, path and query, every value of the environment variables WD and GTS and of the current directory", "why_tests_cant": "Path traversal is about all paths: dots, empty segments, encoded separators, and their interplay with the router's cleaning and filepath.Join.", "anchors": ["cmd/telefacts/main.go:setupServer", "internal/web/web.go:NewRouter", "pkg/serializables/folder.go:Discover"]}
{"id": "C134", "title": "The server starts whatever files are there", "statement": "With missing, unreadable or malformed global files (entity names, fundamental schema, unit registry) the server still starts and listens, whatever directories the environment names.", "quantifier": "every machine: contents of all files, environment variables, current directory, and every schedule of the start-up calls", "why_tests_cant": "Start-up reads three files of arbitrary content and takes locks shared with background writers; that no content and no schedule blocks or panics it is a statement about all of them.", "anchors": ["cmd/telefacts/main.go:setupServer", "pkg/hydratables/global.go:HydrateEntityNames, HydrateFundamentalSchema", "pkg/hydratables/measurement.go:HydrateUnitTypeRegistry", "internal/web/web.go:NewRouter"]}
{"id": "C135", "title": "Missing global files only cost names and units", "statement": "A report is served also if the file of entity names or the unit registry is missing; only the names of entities and units are then plain.", "quantifier": "every machine, every history of requests, every report, every request for it", "why_tests_cant": "It compares the answers about every report with and without the global files, after every history.", "anchors": ["pkg/hydratables/hydratable.go:Hydrate", "pkg/hydratables/query.go:EntityQuery", "pkg/renderables/renderable.go:MarshalRenderable", "pkg/renderables/catalog.go:MarshalCatalog"]}
{"id": "C136", "title": "A client sees the dimensional structure as drawn in the definition linkbases", "statement": "The definition part of the answer about a network shows every definition arc of the report's definition linkbases once, between the concepts its locators point to and with the attributes written there, and every connected concept once with the labels of the report; its roots, the items below them, their dimensions and the members of their domains are those the dimensional arcs draw, every dimension being a concept that a locator points to.", "quantifier": "every folder of files, every entry file, every order of Go's map iteration, every network of the report and every answer about it", "why_tests_cant": "It composes reading arbitrary XML, discovering the linkbases, building the grid under any map order and encoding it; a test fixes one folder and sees one iteration order.", "anchors": ["pkg/renderables/definitionGrid.go:dGrid", "pkg/renderables/dimensionRelationshipSet.go:getDRS", "pkg/renderables/renderable.go:MarshalRenderable", "pkg/hydratables/definitionLinkbase.go:HydrateDefinitionLinkbase", "pkg/serializables/folder.go:Discover"]}
{"id": "C137", "title": "A client sees the dimension members of every column as written", "statement": "In every grid of the answer about a network, the rows above the facts are about the dimensions (and typed domains) that the contexts of the columns name; each of their cells shows the member that the column's context gives the dimension in the instance document, or nothing if it gives none; and no explicit member of a column is left out.", "quantifier": "every folder of files, every entry file, every order of Go's map iteration, every network of the report and every answer about it, every history of requests", "why_tests_cant": "It relates every cell of every grid to the XML the column comes from, under any iteration order; a test fixes one folder and one order.", "anchors": ["pkg/renderables/contextualQuadrant.go:getMemberGridAndVoidQuadrant", "pkg/renderables/contexts.go:getRelevantContexts", "pkg/renderables/renderable.go:MarshalRenderable", "pkg/hydratables/instance.go:hydrateContexts"]}
{"id": "C138", "title": "A client sees the footnotes of the facts shown, and no others", "statement": "The footnotes listed with a grid are exactly those that the instance document links to the facts shown in it, each once and with its markup; every cell has as many footnote numbers as its fact has footnotes, and each number is that of an entry of the list.", "quantifier": "every folder of files, every entry file, every order of Go's map iteration, every network of the report and every answer about it, every history of requests", "why_tests_cant": "It relates the footnotes of every cell of every grid to the links of the XML, under any iteration order; a test fixes one folder and one order.", "anchors": ["pkg/renderables/factualQuadrant.go:getFactualQuadrant", "pkg/hydratables/fact.go:GetFootnotes", "pkg/hydratables/instance.go:hydrateFootnoteLinks", "pkg/renderables/renderable.go:MarshalRenderable"]}
{"id": "C139", "title": "Ctrl+C ends the server", "statement": "Once the process has been sent an interrupt, no further connection is accepted and the process exits with status 0 no later than the grace period (15 seconds unless given by -graceful-timeout) after it, whatever its clients do and however often it is interrupted again.", "quantifier": "all command lines, all sequences of connections, requests, signals and passing time, and all points at which the interrupt comes", "why_tests_cant": "the interrupt can come at any point of set-up, between any two steps of any number of requests, and in any interleaving with further signals", "anchors": ["cmd/telefacts/main.go:main", "cmd/telefacts/main.go:listenForShutdown"]}
{"id": "C140", "title": "Requests in work are answered before the server stops", "statement": "When the process is asked to stop, every request it has already read is answered before it ends; a request is given up only if it takes longer than the server's limit of 15 seconds or the grace period is over.", "quantifier": "all requests in work, all signals that can be caught, all grace periods and all histories up to the exit", "why_tests_cant": "any number of requests can be at any stage when the signal comes, and each may take any time", "anchors": ["cmd/telefacts/main.go:listenForShutdown", "cmd/telefacts/main.go:main"]}
{"id": "C141", "title": "A server that cannot listen does not stay", "statement": "If port 8080 cannot be opened the process says so, accepts nothing, and ends with a status other than 0.", "quantifier": "all histories in which opening the port fails", "why_tests_cant": "it is a statement about all later times: a test can only wait for so long", "anchors": ["cmd/telefacts/main.go:main"]}
{"id": "C142", "title": "A wrong command line is refused", "statement": "If the command line cannot be parsed (or asks for help) the process ends at once with status 2 (or 0), without having taken any request.", "quantifier": "all command lines that cannot be used, all schedules of the listening goroutine and all clients", "why_tests_cant": "whether a client gets in before the flags are parsed depends on the schedule", "anchors": ["cmd/telefacts/main.go:main"]}
{"id": "C143", "title": "Every request is answered once, in time", "statement": "Every request the server reads is answered, exactly once and on the connection it came from, within 15 seconds; a request whose answer is ready in that time gets it.", "quantifier": "all connections, requests, times the work takes, and all schedules", "why_tests_cant": "the time a request takes depends on the size of the report and the load, and any number of requests can be in work", "anchors": ["cmd/telefacts/main.go:setupServer", "cmd/telefacts/main.go:main"]}
{"id": "C144", "title": "Numbers are shown with the unit they are reported in", "statement": "A number in a network's grid is shown with the symbol or name that the registry of units gives to the measure of the unit its fact refers to; if that unit is a measure per a measure, with both, separated by a slash.", "quantifier": "all folders, registries of units, units, facts and requests, whatever has been asked before", "why_tests_cant": "the unit of a cell depends on the instance, on its namespace declarations and on a registry of hundreds of units; a test fixes one of each", "anchors": ["pkg/hydratables/measurement.go:FindMeasurement", "pkg/renderables/factualQuadrant.go:getFactualQuadrant", "pkg/hydratables/instance.go:hydrateUnits"]}
{"id": "C145", "title": "Answers give an entity its name", "statement": "Wherever an answer names the subject of a network or of a catalogue, the name is the one that names.json gives for the scheme and identifier of the entity, and scheme/identifier if it gives none or cannot be read.", "quantifier": "all tables of names, readable or not, all reports and all requests, whatever has been asked before", "why_tests_cant": "it ranges over all tables, including files that are missing or malformed, and over all histories of the cache in which names are kept", "anchors": ["pkg/hydratables/query.go:EntityQuery", "pkg/renderables/catalog.go:MarshalCatalog", "pkg/renderables/renderable.go:MarshalRenderable"]}
{"id": "C146", "title": "Column headers say the period of the column in every language offered", "statement": "The header of every column of every grid of a network contains the period of its context as written, and for each language in the answer's list of languages (and no other) the text of that period in that language.", "quantifier": "all folders, contexts, networks, languages of labels and requests, whatever has been asked before", "why_tests_cant": "columns come from whatever contexts the facts refer to, and the languages from labels of all three grids, gathered concurrently", "anchors": ["pkg/renderables/formatPeriod.go:formatRelevantPeriod", "pkg/renderables/renderable.go:MarshalRenderable"]}
{"id": "C147", "title": "The columns of a grid come in the order of time", "statement": "In every grid of every network the columns come in the order of their periods, so that for dates written as YYYY-MM-DD no column begins after the next one; columns of one period come in the order of the number of their dimension members, the one without members first.", "quantifier": "all folders, contexts, facts, networks, schedules and orders of maps, and all requests, whatever has been asked before", "why_tests_cant": "which contexts become columns depends on the facts, the network and the entity asked for, and the sort compares strings, so whether it follows the calendar must be argued for all dates", "anchors": ["pkg/renderables/contexts.go:sortContexts", "pkg/renderables/renderable.go:MarshalRenderable"]}
{"id": "C148", "title": "Refused requests leave nothing behind in memory", "statement": "What the server keeps in memory is bounded by what is on disk: a request for something that does not exist leaves nothing behind. What is kept is kept under the key of a request that was made, once.", "quantifier": "all histories of requests, in any order and interleaving, with any answers of the functions called", "why_tests_cant": "it is a statement about unbounded histories: a test sees a handful of requests, and nothing that any client can observe in them", "anchors": ["pkg/cache/cache.go:MarshalRenderable", "pkg/cache/cache.go:MarshalExpressable", "pkg/cache/cache.go:hydratable", "pkg/cache/cache.go:NewCache"]}
{"id": "C149", "title": "A network looks the same whenever it is computed", "statement": "Asking twice for one network of an unchanged report gives the same answer: the same subject and relationship set, the same rows, columns, members, cells and dimensions, in the same order, and the same bytes.", "quantifier": "every report that can be loaded, every slug, every two computations of the network, with whatever order each of them visits the maps of the report in and however the three goroutines of each are scheduled", "why_tests_cant": "the orders of Go's maps and the schedules of the goroutines change from run to run; a test sees a few of them", "anchors": ["pkg/renderables/renderable.go MarshalRenderable", "pkg/renderables/presentationGrid.go pGrid", "pkg/renderables/definitionGrid.go dGrid", "pkg/renderables/effectiveDomainGrid.go getRootDomains", "pkg/renderables/label.go GetLabel", "pkg/renderables/contexts.go getRelevantContexts"]}
{"id": "C150", "title": "There is one response cache", "statement": "However often NewCache is called, one after the other or at the same time, at most one cache is made; every call returns that cache; and the argument of the last call decides whether answers are cached.", "quantifier": "every number of calls of NewCache, with every argument, arriving at any time, and every interleaving of their steps", "why_tests_cant": "a test runs the calls one after the other, once per process; what matters is every order and overlap of them", "anchors": ["pkg/cache/cache.go NewCache"]}
{"id": "C151", "title": "The layout of a text block is kept", "statement": "A text block whose HTML is well formed is shown with its layout: in the order of the source, its text, its tables, rows and cells around what is in them, a blank line before every paragraph, heading and division that is not in a table, and nothing else; a cell that spans n columns is n cells, one in the other, around its contents.", "quantifier": "every HTML forest: any texts, elements, attributes and depth of nesting", "why_tests_cant": "Cells, tables and paragraphs nest in any way and to any depth; the renderer keeps flat stacks and counters, which agree with the nesting only for some inputs.", "anchors": ["pkg/renderables/textBlock.go: renderTextBlock, colSpanHelper, colSpan2Helper"]}
{"id": "C152", "title": "What is on offer can be opened", "statement": "For a folder whose report is there and complete, GET /folders/{id} always answers 200 with a readable catalog; every network the catalog lists answers 200 when it is asked for under the listed slug, and shows that entity and relationship set; the inline document answers 200 under its own name; a fact that the document names answers 200 with JSON. Where a catalog is refused, the answer carries the reason for which the folder could not be loaded, and that reason is a real one.", "quantifier": "every folder, every content of the disk, every history of requests before and in between (any cache contents, any schedule), every order of Go's maps", "why_tests_cant": "A listing and a later request are answered from different runs of the loader, in different map orders and with different cache contents; that no listed item is ever refused is a statement about all of them.", "anchors": ["internal/web/web.go: NewRouter, Catalog, Renderable, Expressable", "pkg/cache/cache.go: MarshalCatalog, MarshalRenderable, MarshalExpressable", "pkg/renderables/catalog.go", "pkg/renderables/renderable.go", "pkg/hydratables/hydratable.go"]}
{"id": "C153", "title": "A folder is served as it was loaded, whatever its files become", "statement": "Once the server has loaded a folder, every later answer about that folder (catalog, grids, document, facts) comes from that one load, and every page that has been shown stays as it is, however the files under the folder are edited, replaced or deleted while the server runs.", "quantifier": "every folder, every change of the files at any time, every history and schedule of requests", "why_tests_cant": "The disk may change between any two steps of any request, and requests overlap; that no two answers come from different states of the files is a statement about all interleavings of loads, changes and cache writes.", "anchors": ["pkg/cache/cache.go: Hydratable, MarshalCatalog, MarshalRenderable, MarshalExpressable, NewCache", "pkg/hydratables/hydratable.go: Hydrate", "internal/web/web.go: NewRouter"]}
{"id": "C154", "title": "A reference to a concept means the document it names", "statement": "On the machine the server runs on, a concept reference document#id in a report is looked up in exactly one file: for an absolute URL with scheme and host it is $GTS/gts/concepts/scheme/host/path, for everything else it is the schema of that name which the report leads to in its own folder; the concept is the first declaration with that id there, and there is none if that file is missing or is not a schema. The unit registry is likewise $GTS/gts/concepts/http/www.xbrl.org/utr/utr.xml and the entity names are $WD/wd/names.json, with the current directory for an unset variable.", "quantifier": "every machine (environment, current directory, files), folder, loaded report and reference", "why_tests_cant": "Which file a reference means depends on the environment, the URL and the path arithmetic of both; that no other file is ever read for it is a statement about all of them.", "anchors": ["cmd/telefacts/main.go: setupServer", "pkg/attr/url.go: IsValidUrl", "pkg/serializables/global.go: UrlToFilename, DiscoverGlobalFile, DiscoverGlobalSchema, DiscoverEntityNames", "pkg/hydratables/query.go: HashQuery", "pkg/hydratables/global.go"]}
{"id": "C155", "title": "The files of the web page are got under their own addresses, and no others", "statement": "A GET of an address that is not for a report is answered from the directory goldlord-midas in the current directory, and nothing outside of that directory has a part in the answer. The address / shows index.html there; the address of a file shows exactly its bytes, possibly after redirects; the address of a directory, with or without the slash at the end, shows its index.html and otherwise the names in it. Following redirects always comes to an end.", "quantifier": "every current directory, every tree of files there, every method, address and query", "why_tests_cant": "That an address cannot lead out of the directory, and that redirects never go round in a circle, are statements about all addresses and all trees of files.", "anchors": ["internal/web/web.go: NewRouter"]}
{"id": "C156", "title": "A grid offers the label roles and languages of what it shows", "statement": "The label roles and the languages offered with a grid are those of the labels of its rows, dimensions and members: nothing is offered in which no label is written, and every label role and language of a label shown can be chosen.", "quantifier": "every presentation, calculation and definition network, every set of label linkbases, every report, every order in which maps are visited", "why_tests_cant": "Whether a language is offered depends on which concept is collected last, over all networks and all sets of labels; a test fixes a few.", "anchors": ["pkg/renderables/presentationGrid.go: pGrid", "pkg/renderables/calculationGrid.go: getSummationItems", "pkg/renderables/effectiveDomainGrid.go: getRootDomains, getEffectiveDomain", "pkg/renderables/contexts.go: getContextualMembers", "pkg/renderables/labelPack.go: reduce, destruct"]}
{"id": "C157", "title": "Reading a typed member ends", "statement": "Loading a report whose files can be read comes to an end whatever the typed members of its contexts contain, so a request for it does not wait forever.", "quantifier": "every content of a typed member that encoding/xml accepts in the instance, every set of schemas, every dimension", "why_tests_cant": "That a loop ends is a statement about all contents; the content that makes it endless passes the first decoder.", "anchors": ["pkg/hydratables/instance.go: hydrateTypedMembers", "pkg/serializables/instanceFile.go: DecodeInstanceFile"]}
{"id": "C158", "title": "A short text block has a short rendering", "statement": "The rendering of a text block is at most a small multiple as long as the text block, so a report cannot make the server run out of memory with a few bytes.", "quantifier": "every text block", "why_tests_cant": "A bound on the answer for all text blocks; tests use tables with plausible spans.", "anchors": ["pkg/renderables/textBlock.go: renderTextBlock, colSpanHelper, colSpan2Helper"]}
{"id": "C159", "title": "A concept has one label", "statement": "In a label role and a language, a concept has the same label in every grid, in every row and in every answer.", "quantifier": "every set of label linkbases, every concept, every order in which maps are visited, in every call", "why_tests_cant": "The order of a map is chosen anew in every call; a test sees a few of the orders.", "anchors": ["pkg/renderables/label.go: GetLabel, appendLabelModifiersFromHref"]}
{"id": "C160", "title": "Writing a file replaces its content", "statement": "When actions.WriteFile(dest, data) returns without an error the file dest holds exactly data; when it cannot be opened it is unchanged; at any crash point it holds either what it held before or the data; concurrent calls for one file leave the data of one of them; files no call is for stay as they are; every call returns.", "quantifier": "every file system, every set of concurrent calls and their interleavings, every failure of a system call, every length of the partial writes, every crash point", "why_tests_cant": "interleavings, partial writes and crash points cannot be enumerated by running the function", "anchors": ["internal/actions/writeFile.go:WriteFile"]}
{"id": "C161", "title": "The catalog names the document of an inline report, and the document is served under that name", "statement": "After any history of requests, a catalog sent for a folder has one member DocumentName. It is the name of the entry file if that name ends in .htm or .xhtml, and the empty string otherwise. A non-empty answer 200 to a GET of that name under the folder is the document in the folder's files.", "quantifier": "every disk and folder, every history of concurrent requests and interleaving before the answer, every folder id and entry file name", "why_tests_cant": "it must hold for every report on disk and whatever was cached by earlier concurrent requests", "anchors": ["pkg/renderables/catalog.go:MarshalCatalog", "pkg/cache/cache.go:MarshalRenderable", "pkg/hydratables/document.go:HydrateDocument"]}
{"id": "C162", "title": "The dimension rows of a grid come in a fixed order, one per explicit dimension", "statement": "In every grid of an answer the dimension rows are first one row, not indented, for each dimension of which a column has an explicit member, in the order of the dimensions' hrefs, and then indented rows for typed members; no dimension has two rows of the first kind and no other dimension has one.", "quantifier": "every report that can be loaded, every network, every order in which maps are visited and every schedule, every history of the running server", "why_tests_cant": "the dimension rows are collected in maps whose iteration order is random, and the columns come from arbitrary contexts", "anchors": ["pkg/renderables/contextualQuadrant.go:getVoidQuadrant", "pkg/renderables/contextualQuadrant.go:getMemberGridAndVoidQuadrant"]}
{"id": "C163", "title": "JSON answers hold no markup", "statement": "Whatever texts a report, its labels or its footnotes hold, the body of a 200 answer for a catalog, a network or a fact is UTF-8 text without control characters and without the characters <, >, & and the line separators U+2028 and U+2029, so a client may put it into a page or a script; the only exception is the inline document itself.", "quantifier": "every set of files and folders, every history of the running server, every request for a catalog, network or fact", "why_tests_cant": "the texts come from arbitrary filings, including bytes that are not UTF-8, and reach the answer through every field of the catalog, grids, footnotes and fact views", "anchors": ["pkg/renderables/catalog.go:MarshalCatalog", "pkg/renderables/renderable.go:MarshalRenderable", "pkg/renderables/expressable.go:MarshalExpressable", "internal/web/web.go:Catalog", "internal/web/web.go:Renderable"]}
{"id": "C164", "title": "The catalog of a folder is the same whenever it is made", "statement": "Two servers that see the same files, or one server before and after a restart, send the same bytes as the catalog of a folder, whatever they were asked before; and an address taken from a catalog leads to a page about the same role and the same entity on each of them.", "quantifier": "every set of files, every two histories of running servers, all schedules of their requests and goroutines and all map iteration orders in discovery, loading and rendering", "why_tests_cant": "the order in which documents are discovered, loaded and visited is random, and which document stands for a namespace may differ from one load to the next", "anchors": ["pkg/renderables/catalog.go:MarshalCatalog", "pkg/renderables/renderable.go:MarshalRenderable", "pkg/hydratables/instance.go:hydrateContexts", "pkg/serializables/folder.go:Discover"]}
{"id": "C165", "title": "A fact looks the same whenever it is asked for", "statement": "All answers about one fact of a loaded report have the same bytes: labels, period, dimensions, value and footnotes do not depend on when the answer is computed.", "quantifier": "every loaded report, every fact name and context, every order in which each map is visited", "why_tests_cant": "each of the loops over instances, label linkbases, members and typed domains visits its map in a random order of its own", "anchors": ["pkg/renderables/expressable.go:MarshalExpressable", "pkg/renderables/label.go:GetLabel", "pkg/hydratables/fact.go:FindFact", "pkg/hydratables/fact.go:GetFootnotes"]}
{"id": "C166", "title": "A fact says the same in a table and by itself", "statement": "If a fact of a loaded report is answered by itself, then every network answered for the entity of its context has, in each row for the fact's concept (declared and not abstract) of its presentation, of its sums and of its dimensions, a cell that shows the same value as the answer, in a column headed by the same period. This also holds between answers of two loads of the folder, or of two servers, when every namespace of the folder has one document.", "quantifier": "every loaded report, every network and fact of it, every order in which each map is visited, every pair of histories of two servers", "why_tests_cant": "the two answers are computed by different code, at different times, from maps visited in different orders; agreement must hold for each pair of them", "anchors": ["pkg/renderables/expressable.go:MarshalExpressable", "pkg/renderables/factualQuadrant.go:getFactualQuadrant", "pkg/renderables/contexts.go:getRelevantContexts", "pkg/renderables/fact.go:render", "pkg/renderables/presentationGrid.go:pGrid", "pkg/renderables/calculationGrid.go", "pkg/renderables/definitionGrid.go"]}
{"id": "C167", "title": "An error cannot be taken for a page", "statement": "Every answer of the server is a success, a redirection without a body, or a refusal (400, 403, 404 or 500) sent as text/plain with X-Content-Type-Options: nosniff, whatever the request repeats in the message; so a browser never runs an error as a page.", "quantifier": "every method, address and query, every outcome of the services, every state of the server and of the files of the web page", "why_tests_cant": "the message of an error can hold any text, among it text from the request, and errors come from three handlers, the router and the file server", "anchors": ["internal/web/web.go:Catalog", "internal/web/web.go:Renderable", "internal/web/web.go:Expressable", "internal/web/web.go:NewRouter"]}
{"id": "C168", "title": "Every page of a network is one the catalog lists", "statement": "The page of a network is about an entity and a role that the catalog of the folder lists, with the same name of the entity and the same title of the role, and its address is the one made of these two; so no network is answered that cannot be found from the catalog, also when another server, or the same one after a restart, sends the catalog.", "quantifier": "every set of files, every folder and address, every two histories of running servers, all schedules and all map iteration orders in discovery, loading and rendering", "why_tests_cant": "the catalog and the page are made by different code from different loads of the folder, whose order of documents is random, and the address may be any text", "anchors": ["pkg/renderables/catalog.go:MarshalCatalog", "pkg/renderables/renderable.go:MarshalRenderable", "internal/web/web.go:Catalog", "internal/web/web.go:Renderable"]}
{"id": "C169", "title": "Every page of a network has its address in the catalog", "statement": "The address at which the page of a network is answered is in the Networks of the folder's catalog, under the page's own entity and role. It holds if no role is declared with two definitions; otherwise the catalog lists the role twice with one address for both, and the other page is answered at an address the catalog does not have.", "quantifier": "every folder's contexts and role types, in every map iteration order for the catalog and for the page, every address", "why_tests_cant": "the address may be any text, the contexts and role types any number, and the two are visited in random orders", "anchors": ["pkg/renderables/catalog.go:MarshalCatalog", "pkg/renderables/relationshipSet.go:sortedRelationshipSets", "pkg/renderables/renderable.go:MarshalRenderable"]}

{
 "claims": [
  {
   "property": "C01",
   "status": "proved",
   "theorems": [
    "C01_qname_resolution"
   ],
   "note": "Model Xmlns/Ns/IndexRune over byte strings (AttrModel). Spec: declarative 'first declaration' relation. Induction over the attribute list."
  },
  {
   "property": "C02",
   "status": "proved",
   "theorems": [
    "C02_find_attr",
    "C02_find_xpath_attr"
   ],
   "note": "Model FindAttr. Spec: l1 ++ a :: l2 with no match in l1."
  },
  {
   "property": "C03",
   "status": "proved",
   "theorems": [
    "C03_same_namespace_same_prefix",
    "C03_standard_prefixes",
    "C03_provide_name",
    "C03_order_independent"
   ],
   "note": "Model NameProvider (processPrefixes, targetPrefix, newPrefix, ProvideName with an arbitrary permutation as map order). Invariant target[o] = nameMap[origin[o]] over the attribute loop."
  },
  {
   "property": "C04",
   "status": "partial",
   "theorems": [
    "C04_distinct_namespaces_distinct_prefixes_refuted",
    "C04_distinct_namespaces_distinct_prefixes_partial"
   ],
   "note": "Refuted by a witness declaration list (vm_compute); partial theorem: no clash with prefixes seen earlier."
  },
  {
   "property": "C05",
   "status": "partial",
   "theorems": [
    "C05_provider_never_panics_refuted",
    "C05_provider_never_panics_partial"
   ],
   "note": "newPrefix as fuelled loop with explicit panic from toChar; refuted by 27 colliding prefixes; partial: no panic with fewer than 27 prefixes in the table."
  },
  {
   "property": "C06",
   "status": "partial",
   "theorems": [
    "C06_provide_xml_name_never_panics_refuted",
    "C06_provide_xml_name_partial",
    "C06_provide_concept_name"
   ],
   "note": "ProvideXmlName with explicit slice panic. Refuted for unprefixed names, partial for prefixed ones."
  },
  {
   "property": "C07",
   "status": "proved",
   "theorems": [
    "C07_relationship_sets",
    "C07_order_independent"
   ],
   "note": "Model dedupRelationshipSets/sortedRelationshipSets with stable sort; uniqueness of sorted duplicate-free permutations for a strict total order."
  },
  {
   "property": "C08",
   "status": "proved",
   "theorems": [
    "C08_subjects",
    "C08_order_independent"
   ],
   "note": "Same argument for entities."
  },
  {
   "property": "C09",
   "status": "proved",
   "theorems": [
    "C09_every_slug_opens"
   ],
   "note": "FNV-1a-128 + hex modelled exactly; search loop of MarshalRenderable modelled; membership argument."
  },
  {
   "property": "C10",
   "status": "partial",
   "theorems": [
    "C10_opens_first_partial",
    "C10_opens_own_pair_partial",
    "C10_opens_own_pair_refuted"
   ],
   "note": "Refuted by concatenation ambiguity; partial theorem under 'no slug collision inside this catalog'."
  },
  {
   "property": "C11",
   "status": "proved",
   "theorems": [
    "C11_slug",
    "C11_alphabet"
   ],
   "note": "Length/alphabet lemma for hex encoding, fold characterisation of FNV; cross-checked against slugs in the repo's tests."
  },
  {
   "property": "C12",
   "status": "partial",
   "theorems": [
    "C12_catalog_names",
    "C12_renderable_names_partial",
    "C12_renderable_names_refuted"
   ],
   "note": "Error plumbing of MarshalRenderable modelled (the reused err variable). Catalog part proved, renderable part refuted."
  },
  {
   "property": "C13",
   "status": "proved",
   "theorems": [
    "C13_document_name",
    "C13_networks"
   ],
   "note": "Direct from the MarshalCatalog model."
  },
  {
   "property": "C14",
   "status": "proved",
   "theorems": [
    "C14_every_fact_has_its_column"
   ],
   "note": "getRelevantContexts modelled with explicit nil-dereference outcome; induction over hrefs and facts."
  },
  {
   "property": "C15",
   "status": "proved",
   "theorems": [
    "C15_columns_are_reported_contexts"
   ],
   "note": "As C14, plus NoDup of (instance, contextRef)."
  },
  {
   "property": "C16",
   "status": "proved",
   "theorems": [
    "C16_columns_sorted",
    "C16_stable",
    "C16_order_is_total"
   ],
   "note": "Comparator of sortContexts modelled; strict weak order on well-formed members; stable sort lemma."
  },
  {
   "property": "C17",
   "status": "proved",
   "theorems": [
    "C17_factual_quadrant",
    "C17_member_grid"
   ],
   "note": "Length lemmas over the grid models."
  },
  {
   "property": "C18",
   "status": "proved",
   "theorems": [
    "C18_cell_is_first_fact",
    "C18_one_instance"
   ],
   "note": "nth-lemmas over getFactualQuadrant model, FindFact = first match."
  },
  {
   "property": "C19",
   "status": "partial",
   "theorems": [
    "C19_refuted",
    "C19_same_order_partial",
    "C19_one_footnote_partial"
   ],
   "note": "Each range over idMap takes its own arbitrary order. Refuted with two footnotes; partial for at most one footnote."
  },
  {
   "property": "C20",
   "status": "proved",
   "theorems": [
    "C20_footnote_list"
   ],
   "note": "Multiset argument independent of orders."
  },
  {
   "property": "C21",
   "status": "partial",
   "theorems": [
    "C21_refuted",
    "C21_crash_iff_dangling_partial"
   ],
   "note": "Refuted by a witness with a dangling reference; partial: no crash if all references resolve."
  },
  {
   "property": "C22",
   "status": "proved",
   "theorems": [
    "C22_abstract_concepts_add_nothing",
    "C22_only_abstract_concepts"
   ],
   "note": "From the filter in getRelevantContexts."
  },
  {
   "property": "C23",
   "status": "proved",
   "theorems": [
    "C23_outline"
   ],
   "note": "Rose trees (the external arcs.NewRArc result is universally quantified). Preorder spec as independent inductive definition."
  },
  {
   "property": "C24",
   "status": "proved",
   "theorems": [
    "C24_locator"
   ],
   "note": "Model of the four mapXLocatorToHref functions; first-match spec."
  },
  {
   "property": "C25",
   "status": "proved",
   "theorems": [
    "C25_items",
    "C25_item_grid"
   ],
   "note": "cMap grouping modelled; membership/filter spec, stable sort."
  },
  {
   "property": "C26",
   "status": "proved",
   "theorems": [
    "C26_sign_and_scale",
    "C26_unique"
   ],
   "note": "binary64 as SpecFloat; exact round-half-even decimal formatting; |displayed - |w|| <= 0.05."
  },
  {
   "property": "C27",
   "status": "proved",
   "theorems": [
    "C27_strictly_sorted",
    "C27_any_order"
   ],
   "note": "Sorted by unique href; uniqueness of sorted lists; arbitrary permutation of the map."
  },
  {
   "property": "C28",
   "status": "proved",
   "theorems": [
    "C28_links",
    "C28_nodes",
    "C28_any_order"
   ],
   "note": "getDRS modelled; set reasoning."
  },
  {
   "property": "C29",
   "status": "proved",
   "theorems": [
    "C29_sorted",
    "C29_contradictory",
    "C29_no_hypercube"
   ],
   "note": "getEffectiveDomain modelled; sortedness and emptiness."
  },
  {
   "property": "C30",
   "status": "proved",
   "theorems": [
    "C30_split",
    "C30_without_loss"
   ],
   "note": "Partition lemma."
  },
  {
   "property": "C31",
   "status": "partial",
   "theorems": [
    "C31_refuted",
    "C31_partial",
    "C31_cells",
    "C31_rows"
   ],
   "note": "Model of getContextualMembers/explicit rows; nth-lemma."
  },
  {
   "property": "C32",
   "status": "partial",
   "theorems": [
    "C32_refuted",
    "C32_one_dimension_partial"
   ],
   "note": "Refuted by two typed dimensions (witness); partial for one."
  },
  {
   "property": "C33",
   "status": "partial",
   "theorems": [
    "C33_refuted",
    "C33_no_invention_partial",
    "C33_no_overlap_partial",
    "C33_terminates_partial"
   ],
   "note": "The three goroutines append to two shared slices without a lock. A slice is a header (array, length) in a memory of growing arrays; loading the header, copying each element into a grown array, writing each appended element and storing the header are separate steps (simplification: the header itself is read and written atomically, a torn header is not modelled). Refuted by a lost update; partial: on every schedule nothing is invented and the run ends, and if no two appends overlap the result is exactly the union."
  },
  {
   "property": "C34",
   "status": "proved",
   "theorems": [
    "C34_texts",
    "C34_roles"
   ],
   "note": "GetLabel modelled as a fold over linkbases/links/arcs/labels; last-write-wins spec."
  },
  {
   "property": "C35",
   "status": "partial",
   "theorems": [
    "C35_english_refuted",
    "C35_english_partial"
   ],
   "note": "Refuted: the 'en' case is empty. Partial: 'en-US' and 'es'."
  },
  {
   "property": "C36",
   "status": "partial",
   "theorems": [
    "C36_languages_partial",
    "C36_roles",
    "C36_languages_refuted"
   ],
   "note": "Refuted: reduce resets the pack of a role. Partial: languages of the last pack per role; single pack exact."
  },
  {
   "property": "C37",
   "status": "proved",
   "theorems": [
    "C37_facts_loaded",
    "C37_fails_exactly_without_name_or_file"
   ],
   "note": "Model hydrateFacts; filter/map/stable-sort characterisation."
  },
  {
   "property": "C38",
   "status": "partial",
   "theorems": [
    "C38_confusion_refuted",
    "C38_decimals_partial"
   ],
   "note": "Model strconv.Atoi and the sentinels; refuted for two sentinel values, partial elsewhere (round trip through decimal printing)."
  },
  {
   "property": "C39",
   "status": "partial",
   "theorems": [
    "C39_contexts_partial",
    "C39_missing_entity_refuted",
    "C39_no_crash_partial"
   ],
   "note": "Model hydrateContexts; filter/map/stable-sort characterisation; panic for missing entity shown separately."
  },
  {
   "property": "C40",
   "status": "proved",
   "theorems": [
    "C40_units_loaded"
   ],
   "note": "Model hydrateUnits."
  },
  {
   "property": "C41",
   "status": "partial",
   "theorems": [
    "C41_links_loaded",
    "C41_id_and_label_refuted",
    "C41_two_links_refuted",
    "C41_empty_link_refuted",
    "C41_sound_partial",
    "C41_complete_partial"
   ],
   "note": "Model GetFootnotes; refuted (early return); partial for a single link."
  },
  {
   "property": "C42",
   "status": "partial",
   "theorems": [
    "C42_numerator",
    "C42_denominator_refuted",
    "C42_denominator_partial"
   ],
   "note": "Model FindMeasurement; denominator part refuted, numerator part proved."
  },
  {
   "property": "C43",
   "status": "partial",
   "theorems": [
    "C43_nesting_refuted",
    "C43_document_order_partial",
    "C43_nesting_partial"
   ],
   "note": "Token loop of hydrateTypedMembers modelled; refuted for siblings; partial for nested-only content."
  },
  {
   "property": "C44",
   "status": "proved",
   "theorems": [
    "C44_concepts_loaded",
    "C44_fails_exactly_without_name_or_file",
    "C44_declaration_is_a_function"
   ],
   "note": "Model hydrateConcepts."
  },
  {
   "property": "C45",
   "status": "partial",
   "theorems": [
    "C45_all_role_types_refuted",
    "C45_role_types_partial",
    "C45_first_appinfo_in_order_partial"
   ],
   "note": "Refuted (first annotation only); partial exact statement for the first annotation."
  },
  {
   "property": "C46",
   "status": "proved",
   "theorems": [
    "C46_presentation_linkbase",
    "C46_definition_linkbase",
    "C46_calculation_linkbase",
    "C46_label_linkbase",
    "C46_fails_exactly_without_name_or_file"
   ],
   "note": "Model the four link hydrators; filter/map specs with the spec's own attribute names."
  },
  {
   "property": "C47",
   "status": "partial",
   "theorems": [
    "C47_closed_refuted",
    "C47_usable_refuted",
    "C47_flags_partial"
   ],
   "note": "Refuted with witnesses; partial exact behaviour."
  },
  {
   "property": "C48",
   "status": "proved",
   "theorems": [
    "C48_merge",
    "C48_order_irrelevant"
   ],
   "note": "Model dedup*Link with arbitrary map order."
  },
  {
   "property": "C49",
   "status": "proved",
   "theorems": [
    "C49_name_query",
    "C49_hash_query",
    "C49_hash_query_namespace",
    "C49_name_then_hash",
    "C49_hash_then_name"
   ],
   "note": "Round trip through href = location#id."
  },
  {
   "property": "C50",
   "status": "proved",
   "theorems": [
    "C50_month_count"
   ],
   "note": "Gregorian calendar with day-by-day loop as in the code; closed form by induction."
  },
  {
   "property": "C51",
   "status": "proved",
   "theorems": [
    "C51_english",
    "C51_spanish",
    "C51_other_languages"
   ],
   "note": "time.Parse for the fixed layout modelled; fallback lemmas."
  },
  {
   "property": "C52",
   "status": "proved",
   "theorems": [
    "C52_every_header",
    "C52_renderable"
   ],
   "note": "Fold over languages as in formatRelevantPeriod."
  },
  {
   "property": "C53",
   "status": "proved",
   "theorems": [
    "C53_no_panic"
   ],
   "note": "Stack invariant: concatenation of blocks n^(n-1)."
  },
  {
   "property": "C54",
   "status": "proved",
   "theorems": [
    "C54_balanced"
   ],
   "note": "Counting invariant over the token stream."
  },
  {
   "property": "C55",
   "status": "partial",
   "theorems": [
    "C55_markup_partial",
    "C55_refuted"
   ],
   "note": "Refuted (text is emitted unescaped); partial: markup tokens only emit the whitelist."
  },
  {
   "property": "C56",
   "status": "partial",
   "theorems": [
    "C56_refuted",
    "C56_transparent_partial",
    "C56_usual_partial",
    "C56_attained"
   ],
   "note": "Requests as programs over a cache, two Go RWMutexes with their exact waiting rules, background writers; discovery, hydration and rendering are outcome relations (any outcome, also a panic). Refuted by two facts that share a key; partial: whenever keys are separate, which holds for ordinary ids and names without a hash collision. C56_attained: conversely every result of the uncached computation is given by some run (so the theorem is not met by a server that says nothing)."
  },
  {
   "property": "C57",
   "status": "partial",
   "theorems": [
    "C57_hydration_refuted",
    "C57_response_refuted",
    "C57_discovery_partial",
    "C57_no_content_partial"
   ],
   "note": "Refuted twice (a cached nil folder panics; a cached nil response is a success). Partial: failed discovery always fails the same way, and a failing request is never answered with content."
  },
  {
   "property": "C58",
   "status": "partial",
   "theorems": [
    "C58_keys",
    "C58_fact_refuted",
    "C58_folder_refuted",
    "C58_separate_partial"
   ],
   "note": "Which keys a request's program touches (C58_keys), then: refuted for facts and for the folder names.json; partial: separate for ordinary ids and names without a hash collision."
  },
  {
   "property": "C59",
   "status": "partial",
   "theorems": [
    "C59_refuted",
    "C59_answered_partial",
    "C59_machine_refuted"
   ],
   "note": "Refuted: three requests leave the lock read-locked for ever and every later request unanswered. Partial: with separate keys every schedule ends, both locks are free and each request whose own calls return is answered, even if the calls of others hang, unless the process has ended (C131). C59_machine_refuted: on every machine with a readable names.json and one report that loads, the two requests GET /folders/names.json and GET /folders/<id> do it."
  },
  {
   "property": "C60",
   "status": "proved",
   "theorems": [
    "C60_computed_afresh",
    "C60_cache_untouched"
   ],
   "note": "Invariant over all runs: answers are uncached answers and the cache is never written (requests for global files are covered by dry injection only)."
  },
  {
   "property": "C61",
   "status": "partial",
   "theorems": [
    "C61_catalog",
    "C61_renderable",
    "C61_refuted",
    "C61_fact_partial"
   ],
   "note": "Handlers over a response-writer state machine (header fixed at WriteHeader); url.ParseQuery and QueryUnescape modelled and characterised by an independent grammar of query strings. Refuted: a missing name or contextref is passed on as empty; partial: everything else, exactly. The router is in C123."
  },
  {
   "property": "C62",
   "status": "partial",
   "theorems": [
    "C62_refuted",
    "C62_guessed_partial"
   ],
   "note": "Refuted for every success: the header is set after WriteHeader; partial: the content type is the one net/http guesses from the bytes."
  },
  {
   "property": "C63",
   "status": "partial",
   "theorems": [
    "C63_document_partial",
    "C63_other_slugs_partial",
    "C63_refuted"
   ],
   "note": "From C56: partial, for separate keys. Refuted (`C63_refuted`) for the functions of the cache called with a slug that has a slash: the document of folder F/x and the slug x/a.htm of folder F share a key. The router never passes such a slug."
  },
  {
   "property": "C64",
   "status": "partial",
   "theorems": [
    "C64_refuted",
    "C64_host_refuted",
    "C64_inside_partial",
    "C64_below_partial",
    "C64_refused"
   ],
   "note": "filepath.Clean/Join modelled by their documentation; the specification walks a path segment by segment. Refuted by '..' in the path and by the host '..'; partial: the exact place without them. url.Parse is an argument."
  },
  {
   "property": "C65",
   "status": "proved",
   "theorems": [
    "C65_once",
    "C65_same_id",
    "C65_untouched",
    "C65_reported"
   ],
   "note": "Any number of NewFolder calls, one system call or piece of a write at a time, on a shared file system; every system call may also fail. Invariant: a directory has at most one owner, who made it."
  },
  {
   "property": "C66",
   "status": "partial",
   "theorems": [
    "C66_refuted",
    "C66_complete_partial",
    "C66_half_made_partial"
   ],
   "note": "Crash = drop all calls, keep the files. Refuted: a stop after Mkdir leaves a folder without entry file name that later calls report as existing; partial: complete folders survive, half-made ones only come from running or failed calls."
  },
  {
   "property": "C67",
   "status": "partial",
   "theorems": [
    "C67_utf8_partial",
    "C67_refuted",
    "C67_read_back_partial"
   ],
   "note": "From the invariant of C65: the content of \"_\" is exactly what was encoded; encoding/json's string codec is modelled in JsonModel. Refuted for entry names that are not UTF-8; partial: the name is read back exactly when it is UTF-8."
  },
  {
   "property": "C68",
   "status": "partial",
   "theorems": [
    "C68_exact_partial",
    "C68_all_partial",
    "C68_schedule",
    "C68_refuted"
   ],
   "note": "Goroutines as a tree of processes that share the folder (DiscoverModel): each step under the lock is one step. What is written is proved followed (soundness) and what is owed at the start is settled at the end (completeness), on every schedule. Refuted: an included schema without a target namespace is never loaded; partial: exactly the documents reachable where schemaRef and include name schemas with a target namespace and imports a namespace; C68_schedule: the same on every schedule."
  },
  {
   "property": "C69",
   "status": "partial",
   "theorems": [
    "C69_refuted",
    "C69_acyclic_partial",
    "C69_exact_partial"
   ],
   "note": "Refuted by a self-include; partial: Discover returns exactly when no chain of references is endless (well-founded induction), and then no schedule is endless or stuck."
  },
  {
   "property": "C70",
   "status": "partial",
   "theorems": [
    "C70_one_document_partial",
    "C70_refuted"
   ],
   "note": "Refuted by an include witness (all schedules explored through an exhaustive successor function proved complete); partial: if no other document is given for the namespace."
  },
  {
   "property": "C71",
   "status": "proved",
   "theorems": [
    "C71_only_sources",
    "C71_bytes"
   ],
   "note": "Rose tree of HTML nodes; structural induction; the specification is a relation that leaves no choice. html.Parse and html.Render are arguments."
  },
  {
   "property": "C72",
   "status": "proved",
   "theorems": [
    "C72_same_maps",
    "C72_error",
    "C72_terminates"
   ],
   "note": "Goroutines as arbitrary permutation/interleaving of atomic bodies."
  },
  {
   "property": "C73",
   "status": "partial",
   "theorems": [
    "C73_refuted",
    "C73_answers_partial"
   ],
   "note": "MarshalExpressable modelled with explicit nil dereferences (ExpressModel). Refuted: nil document, missing context; partial: with a document and resolvable references no request crashes (invariant of makeIndents: below the first level a dimension is at hand)."
  },
  {
   "property": "C74",
   "status": "proved",
   "theorems": [
    "C74_about_the_request",
    "C74_answer",
    "C74_no_answer",
    "C74_find_fact"
   ],
   "note": "Soundness for any number of instances and any map orders; completeness, period and footnotes for one instance; exact condition for answering nothing."
  },
  {
   "property": "C75",
   "status": "proved",
   "theorems": [
    "C75_languages",
    "C75_no_fact"
   ],
   "note": "Fold over languages."
  },
  {
   "property": "C76",
   "status": "proved",
   "theorems": [
    "C76_lifo",
    "C76_copy_independent"
   ],
   "note": "Direct model of Stack with explicit copying."
  },
  {
   "property": "C77",
   "status": "proved",
   "theorems": [
    "C77_paths",
    "C77_sibling_order"
   ],
   "note": "Path-set semantics of rose trees."
  },
  {
   "property": "C78",
   "status": "proved",
   "theorems": [
    "C78_registry",
    "C78_no_registry"
   ],
   "note": "Model mapMeasurements as fold; last-match spec."
  },
  {
   "property": "C79",
   "status": "proved",
   "theorems": [
    "C79_complete",
    "C79_error_from_a_part"
   ],
   "note": "Model Hydrate's sequencing."
  },
  {
   "property": "C80",
   "status": "proved",
   "theorems": [
    "C80_entity_query"
   ],
   "note": "Model EntityQuery (CatalogModel); the name table is an argument."
  },
  {
   "property": "C81",
   "status": "partial",
   "theorems": [
    "C81_undeclared_element_refuted",
    "C81_declared_content_partial"
   ],
   "note": "Token loop of hydrateTypedMembers with explicit nil dereference. Refuted: an element that no schema declares; partial: no crash if every element inside is declared."
  },
  {
   "property": "C82",
   "status": "proved",
   "theorems": [
    "C82_typed_values"
   ],
   "note": "Induction over the token stream with the stack of open elements."
  },
  {
   "property": "C83",
   "status": "partial",
   "theorems": [
    "C83_malformed_inline_fact_refuted",
    "C83_no_crash_partial"
   ],
   "note": "Refuted: an inline fact without a name or context attribute; partial: no crash if every inline fact has both."
  },
  {
   "property": "C84",
   "status": "proved",
   "theorems": [
    "C84_text"
   ],
   "note": "Induction over the token stream (FactModel); the tokenizer is external."
  },
  {
   "property": "C85",
   "status": "proved",
   "theorems": [
    "C85_expression",
    "C85_unique"
   ],
   "note": "Case analysis of the fact expression against an independent relation, which is proved single-valued."
  },
  {
   "property": "C86",
   "status": "partial",
   "theorems": [
    "C86_refuted",
    "C86_shared_languages_partial",
    "C86_alike_partial"
   ],
   "note": "The state the loop threads through the map (label packs, languages) is modelled; refuted by two orders of one grid; partial: cells agree on shared languages, and share all if the labels used have the same roles and languages."
  },
  {
   "property": "C87",
   "status": "partial",
   "theorems": [
    "C87_refuted",
    "C87_defaults_partial"
   ],
   "note": "Refuted: dimension-domain arcs are marked too; partial: dimension-default arcs always are, and nothing but these two."
  },
  {
   "property": "C88",
   "status": "partial",
   "theorems": [
    "C88_other_dimension_refuted",
    "C88_other_default_refuted",
    "C88_inheritance_refuted",
    "C88_entries_partial"
   ],
   "note": "Refuted three ways (members of other dimensions, excluded defaults of other dimensions, no inheritance); partial: the exact contents for networks without repeated concepts, by flattening the nested loops."
  },
  {
   "property": "C89",
   "status": "proved",
   "theorems": [
    "C89_root_domains",
    "C89_root_domain_grid"
   ],
   "note": "Invariant over the loop that builds the root domains."
  },
  {
   "property": "C90",
   "status": "partial",
   "theorems": [
    "C90_refuted",
    "C90_one_linkbase_partial"
   ],
   "note": "Refuted: every definition linkbase maps the locators; partial: one definition linkbase."
  },
  {
   "property": "C91",
   "status": "partial",
   "theorems": [
    "C91_refuted",
    "C91_roles_partial"
   ],
   "note": "Refuted for effective members; partial: roots, items, dimensions."
  },
  {
   "property": "C92",
   "status": "partial",
   "theorems": [
    "C92_refuted",
    "C92_own_languages_partial"
   ],
   "note": "Refuted: facts are rendered in the languages of their own grid only; partial: they are shown in all supported languages of their own grid."
  },
  {
   "property": "C93",
   "status": "partial",
   "theorems": [
    "C93_refuted",
    "C93_dimensions_partial"
   ],
   "note": "Refuted: a typed dimension of another context of the same concept removes all rows; partial: exact rows if the typed members involved are about dimensions of the requested context."
  },
  {
   "property": "C94",
   "status": "partial",
   "theorems": [
    "C94_refuted",
    "C94_transparent_partial"
   ],
   "note": "Refuted: the registry's URL asked for as a schema panics; partial: separate keys, errors included."
  },
  {
   "property": "C95",
   "status": "partial",
   "theorems": [
    "C95_refuted",
    "C95_plain_partial"
   ],
   "note": "Refuted: the fields are decoded twice; partial: names and references without % and +."
  },
  {
   "property": "C96",
   "status": "partial",
   "theorems": [
    "C96_refuted",
    "C96_bytes_partial",
    "C96_schema_partial"
   ],
   "note": "Refuted: the error is shadowed, (nil, nil) is returned; partial: bytes are returned exactly for a file that is there and readable."
  },
  {
   "property": "C97",
   "status": "partial",
   "theorems": [
    "C97_refuted",
    "C97_distinct_partial"
   ],
   "note": "Refuted with '..'; partial: injective without."
  },
  {
   "property": "C98",
   "status": "proved",
   "theorems": [
    "C98_images"
   ],
   "note": "Fold over the directory entries; http.DetectContentType and base64 are arguments."
  },
  {
   "property": "C99",
   "status": "partial",
   "theorems": [
    "C99_refuted",
    "C99_decodable_partial"
   ],
   "note": "Refuted: an undecodable inline document in a folder with an image dereferences nil; partial: no images, or decodable."
  },
  {
   "property": "C100",
   "status": "partial",
   "theorems": [
    "C100_refuted",
    "C100_one_claim_partial"
   ],
   "note": "Refuted by two schemaRefs to schemas of one namespace; partial: each namespace is mapped to a document given for it, so the map is the same if there is only one."
  },
  {
   "property": "C101",
   "status": "partial",
   "theorems": [
    "C101_refuted",
    "C101_inside_partial"
   ],
   "note": "Refuted by a reference with '..'; partial: references without '..'."
  },
  {
   "property": "C102",
   "status": "partial",
   "theorems": [
    "C102_refuted",
    "C102_instance_partial"
   ],
   "note": "Refuted: other suffixes give an empty folder; partial: .xhtml, .htm, .xbrl, .xml."
  },
  {
   "property": "C103",
   "status": "partial",
   "theorems": [
    "C103_own_name_refuted",
    "C103_tuple_refuted",
    "C103_facts_partial"
   ],
   "note": "Model: `XmlModel` (from the XML tree through encoding/xml's struct tags to the decoded structs), composed with `hydrate_instance`. Refuted: facts named context, unit, schemaRef or footnoteLink, and facts in tuples, are lost; partial: exact description of what is loaded."
  },
  {
   "property": "C104",
   "status": "partial",
   "theorems": [
    "C104_contexts_partial",
    "C104_units_partial",
    "C104_foreign_refuted",
    "C104_scope_refuted",
    "C104_white_space_refuted"
   ],
   "note": "Refuted: foreign homonyms, prefixes declared below the root, padded members; partial: exact for documents without these three."
  },
  {
   "property": "C105",
   "status": "partial",
   "theorems": [
    "C105_markup_refuted",
    "C105_labels_partial"
   ],
   "note": "Refuted: text in markup is lost; partial: exact if labels contain text only."
  },
  {
   "property": "C106",
   "status": "partial",
   "theorems": [
    "C106_namespace_refuted",
    "C106_root_partial"
   ],
   "note": "Refuted for every decoder: the namespace is not looked at; partial: exact up to the namespace."
  },
  {
   "property": "C107",
   "status": "partial",
   "theorems": [
    "C107_scope_refuted",
    "C107_concepts_partial"
   ],
   "note": "Refuted: prefixes declared on the declaration; partial: exact otherwise."
  },
  {
   "property": "C108",
   "status": "partial",
   "theorems": [
    "C108_foreign_refuted",
    "C108_presentation_partial",
    "C108_definition_partial",
    "C108_calculation_partial"
   ],
   "note": "Refuted: foreign homonyms; partial: exact otherwise."
  },
  {
   "property": "C109",
   "status": "proved",
   "theorems": [
    "C109_registry"
   ],
   "note": "Proof: `query_utr` after `decode_utr` against the tree."
  },
  {
   "property": "C110",
   "status": "proved",
   "theorems": [
    "C110_is_inline",
    "C110_parts"
   ],
   "note": "Proof: the query function selects exactly the located elements of the document-order walk."
  },
  {
   "property": "C111",
   "status": "partial",
   "theorems": [
    "C111_facts_partial",
    "C111_no_fraction_partial",
    "C111_fraction_refuted",
    "C111_scope_refuted"
   ],
   "note": "Refuted: ix:fraction facts, and prefixes declared below the root (the document is refused); partial: exact otherwise."
  },
  {
   "property": "C112",
   "status": "partial",
   "theorems": [
    "C112_annotations_refuted",
    "C112_markup_refuted",
    "C112_roles_partial"
   ],
   "note": "Refuted: annotations or appinfos after the first, and text in markup, are lost; partial: exact with one appinfo and plain text."
  },
  {
   "property": "C113",
   "status": "partial",
   "theorems": [
    "C113_foreign_refuted",
    "C113_footnotes_partial"
   ],
   "note": "Refuted: foreign homonyms; partial: exact otherwise."
  },
  {
   "property": "C114",
   "status": "proved",
   "theorems": [
    "C114_documents"
   ],
   "note": "Proof: `loaded` composes decoding (C103-C113), discovery (C69, C102) and hydration (C79) over a disk of paths, bytes and trees; the references, and the closure under them, are restated on the trees."
  },
  {
   "property": "C115",
   "status": "partial",
   "theorems": [
    "C115_facts_partial",
    "C115_include_refuted"
   ],
   "note": "Refuted: a fact is lost if its schema includes another one of the same namespace (the include takes the namespace over); partial: exact if each namespace is claimed by one document."
  },
  {
   "property": "C116",
   "status": "partial",
   "theorems": [
    "C116_schemas_partial",
    "C116_networks_partial",
    "C116_instance_partial",
    "C116_refuted"
   ],
   "note": "Partial, with the conditions of C104-C113 on each document. Refuted without them (`C116_refuted`): the entity of a context may be read from an element of another namespace."
  },
  {
   "property": "C117",
   "status": "partial",
   "theorems": [
    "C117_index_partial",
    "C117_refuted"
   ],
   "note": "Partial, with the conditions of C111. Refuted without them (`C117_refuted`): facts in ix:fraction elements are not in the index."
  },
  {
   "property": "C118",
   "status": "partial",
   "theorems": [
    "C118_ends",
    "C118_loads_partial",
    "C118_cycle_refuted",
    "C118_context_refuted"
   ],
   "note": "Discovery ends exactly if no schema leads to itself; refuted: a schema that includes itself, a context without an entity; partial: loads otherwise."
  },
  {
   "property": "C119",
   "status": "proved",
   "theorems": [
    "C119_catalog",
    "C119_renderable",
    "C119_expressable"
   ],
   "note": "ResponseModel writes the bytes of json.Marshal for the three answers (escapes, omitempty, sorted map keys, null for nil slices). Spec: an independent grammar of JSON texts and the value they denote; proved unique, and of the documented shape."
  },
  {
   "property": "C120",
   "status": "proved",
   "theorems": [
    "C120_catalog",
    "C120_maps"
   ],
   "note": "From C07/C08 and sorting of map keys."
  },
  {
   "property": "C121",
   "status": "partial",
   "theorems": [
    "C121_refuted",
    "C121_catalog_partial",
    "C121_expressable_partial",
    "C121_renderable_partial"
   ],
   "note": "Refuted: CGrid.SummationItems is null for a role without calculation networks; partial: catalog and facts have no null, in a renderable null is only at three names and it is stated when."
  },
  {
   "property": "C122",
   "status": "partial",
   "theorems": [
    "C122_relationship_sets_partial",
    "C122_subjects_partial",
    "C122_refuted"
   ],
   "note": "Composition of C114, C115, C112, C104, C07/C08, C119 and C61. Refuted: role types in a second annotation; partial otherwise."
  },
  {
   "property": "C123",
   "status": "proved",
   "theorems": [
    "C123_one_destination",
    "C123_get",
    "C123_other_methods",
    "C123_redirect"
   ],
   "note": "RouterModel: the routing table on a matcher for mux templates (by mux's documentation), cleanPath on the path.Clean of PathModel. Spec: forms of addresses. Case analysis over the forms of a path; cleaning by the place a path leads to."
  },
  {
   "property": "C124",
   "status": "proved",
   "theorems": [
    "C124_opens",
    "C124_listed"
   ],
   "note": "Composition of C13, C09, C11, C119 and C123."
  },
  {
   "property": "C125",
   "status": "partial",
   "theorems": [
    "C125_grids_partial",
    "C125_text",
    "C125_every_fact",
    "C125_answered",
    "C125_refuted"
   ],
   "note": "ReportModel puts the models of the parts together: MarshalCatalog, MarshalRenderable and MarshalExpressable on a Hydratable, as relations over all orders in which its maps are visited. Composition of C115, C116, C14, C17, C18, C75, C85, C33 and C119, for the presentation grid, every root domain and every summation item. Partial: under the conditions of C115 and C116 on the XML; refuted for two facts of the same concept and context (the first by id is shown)."
  },
  {
   "property": "C126",
   "status": "partial",
   "theorems": [
    "C126_answer_partial",
    "C126_refuted"
   ],
   "note": "Composition of C117, C118, C73, C74, C75, C85, C52 and the JSON of C119 over ReportModel: soundness of every answer in all cases; an answer exists exactly when the fact does and nothing panics if the contexts of the facts exist and no context has a typed member. Partial: under the conditions of C111 and C115 on the XML; refuted for facts tagged ix:fraction, which are not indexed."
  },
  {
   "property": "C127",
   "status": "partial",
   "theorems": [
    "C127_catalog_partial",
    "C127_renderable_partial",
    "C127_fact_partial",
    "C127_refuted"
   ],
   "note": "ServerModel joins the router, the handlers, the cache and the report: the services of CacheModel are the relations of LoadModel and ReportModel. Composition of C56 and C58's invariant (every answer is explained by the uncached calls), C123 and C122, C125, C126. Partial: under the conditions of those theorems on the XML and of C56 on the keys; refuted: after an answer 500 the same request is answered 200 with an empty body."
  },
  {
   "property": "C128",
   "status": "partial",
   "theorems": [
    "C128_answered_partial",
    "C128_refuted"
   ],
   "note": "C59 over ServerModel: C118 gives the end of discovery, C72 that of reading the document, C125 and C126 that of rendering. Partial: for folders whose schemas do not refer to each other in a circle, whatever happens to requests for other folders short of the end of the process (C131); refuted for a schema that includes itself."
  },
  {
   "property": "C129",
   "status": "partial",
   "theorems": [
    "C129_presentation_partial",
    "C129_calculation_partial",
    "C129_refuted",
    "C129_served_presentation_partial",
    "C129_served_calculation_partial"
   ],
   "note": "Composition of C116 (linkbases read as written), C23, C25, C34, C49 and C119 over ReportModel, and for the running server after any history (C129_served_*). Partial: the rows are those of one linkbase that has the network, arcs with a NaN order and links with elements of other namespaces excluded, the tree builder (internal/graph) external; refuted when two linkbases share a role."
  },
  {
   "property": "C130",
   "status": "partial",
   "theorems": [
    "C130_partial",
    "C130_refuted"
   ],
   "note": "The two dereferences of nil that rendering can reach are those of a missing context (contexts.go:217) and of a dimension above a typed member (contextualQuadrant.go). The second is unreachable: hydration only builds typed members whose arcs start at a non-blank dimension (induction over the tokens), so no tree of theirs has a blank top node. The first needs a fact without its context, which the theorem excludes; refuted without that, by a loaded report whose network crashes the process in every order and schedule."
  },
  {
   "property": "C131",
   "status": "partial",
   "theorems": [
    "C131_cause_partial",
    "C131_ends_partial",
    "C131_partial",
    "C131_refuted"
   ],
   "note": "A panic in the handler's own goroutine is recovered by net/http; one in a goroutine that the called code has started (renderable.go:56,67,78, document.go:33,60) ends the process. In CacheModel a call may therefore also end in `Crash`, after which no step is possible. Over every history: the process ends only if some request is for a folder whose hydration, or whose network, may panic in such a goroutine (C131_cause_partial), and every such request can end it (C131_ends_partial). Over ServerModel: if in every folder asked about each fact's contextRef names a context of the instance and the inline facts have a name and a context, the process never ends and all requests are answered (C131_partial, from C130's and C111's lemmas). Refuted: one fact with a missing context; the request being served for another folder is never answered, and nothing is served afterwards."
  },
  {
   "property": "C132",
   "status": "partial",
   "theorems": [
    "C132_partial",
    "C132_content_partial",
    "C132_refuted"
   ],
   "note": "The served answers over ServerModel with the file system exchanged outside the folder (IsolateSpec.same_folder). Partial: if neither the entry file's name nor a reference in the report's documents goes up (`..`), the set of possible answers, and whether the process may end, is the same (C132_partial), and what any history serves may be served with other files elsewhere (C132_content_partial). Refuted: the entry file `../g/x.xml` is read from another folder."
  },
  {
   "property": "C133",
   "status": "proved",
   "theorems": [
    "C133_address",
    "C133_apart"
   ],
   "note": "SetupModel (main.go, url.go, global.go on a machine), RouterModel and PathModel joined: every request that an address makes is for the directory `<base>/wd/folders/<id>`, where `<id>` is one name, not `.` or `..`; two such folders have no file in common (C133_apart)."
  },
  {
   "property": "C134",
   "status": "partial",
   "theorems": [
    "C134_partial",
    "C134_refuted"
   ],
   "note": "SetupModel.started: the three calls of main.go:51-53 as a run of CacheModel. Partial: if the current directory can be read, start-up completes on every schedule without a panic (json.Unmarshal into the map of names is assumed not to panic). Refuted: without a current directory NewRouter panics although WD and GTS are given, so the fallback of main.go:37-39 is of no use."
  },
  {
   "property": "C135",
   "status": "partial",
   "theorems": [
    "C135_registry_refuted",
    "C135_names_refuted",
    "C135_facts_partial",
    "C135_catalog_partial"
   ],
   "note": "Over the server in operation. Refuted twice: without a readable unit registry no content of any report is ever served; without readable names no network is ever displayed (the error of EntityQuery is returned, renderable.go:94,116). Partial: the answers about facts do not depend on the names at all, and the catalog is the one that an empty file of names gives."
  },
  {
   "property": "C136",
   "status": "partial",
   "theorems": [
    "C136_links_partial",
    "C136_roots_partial",
    "C136_refuted",
    "C136_served_links_partial",
    "C136_served_roots_partial"
   ],
   "note": "Composition of C116 (linkbases read as written), C26-C28, C49 and C119 over ReportModel, against DimNetSpec, and for the running server after any history (C136_served_*). Partial: arcs with a NaN order and links with elements of other namespaces excluded, domains exact only where nothing is ambiguous (C27), the tree builder (internal/graph) external; refuted for the dimensions: with a second definition linkbase a label shows up as a dimension that no locator points to."
  },
  {
   "property": "C137",
   "status": "partial",
   "theorems": [
    "C137_members_partial",
    "C137_refuted",
    "C137_typed_refuted",
    "C137_served_members_partial"
   ],
   "note": "Composition of C116 (contexts read as written), C30-C32 and C119 over ReportModel, against ColumnSpec, beside what C125 says of the same grids, and for the running server after any history (C137_served_members_partial). Partial: under the conditions of C116 on the XML; members are complete only in grids whose typed members are simple, one element each (C31_refuted: one that is not makes rows disappear), typed members only where the columns have one typed dimension (C32_refuted: otherwise rows of typed domains name another dimension). MissedProps has a folder for each of the two, loaded, well written and answered as JSON: the row of an explicit member is missing (`C137_refuted`), the row of a typed member names another dimension (`C137_typed_refuted`)."
  },
  {
   "property": "C138",
   "status": "partial",
   "theorems": [
    "C138_footnotes_partial",
    "C138_refuted",
    "C138_served_footnotes_partial"
   ],
   "note": "Composition of C113/C116 (links read as written), C41, C18, C19 and C119 over ReportModel, against ColumnSpec, and for the running server after any history (C138_served_footnotes_partial). Partial: footnote links that are tidy (labels and ids of footnotes agree and are unique, the arcs of a fact in one link from one locator: the conditions C41 needs), a faithful tree builder; that the numbers of a cell are those of its own footnotes is C19 (refuted). Refuted for a fact with a footnote in each of two footnote links (`C138_refuted`, a folder and the JSON of its answer): that of the second link is not listed."
  },
  {
   "property": "C139",
   "status": "partial",
   "theorems": [
    "C139_interrupt_partial",
    "C139_interrupt_refuted"
   ],
   "note": "MainModel: main.go's main and listenForShutdown, with the documented behaviour of net/http's Server, os/signal and flag, as a timed transition system whose log of events is all the theorems speak of. Refuted: an interrupt during set-up, before signal.Notify, kills the process. Partial: any other interrupt leads to an exit with status 0 within the grace period, nothing is accepted at a later time, and no state is stuck."
  },
  {
   "property": "C140",
   "status": "partial",
   "theorems": [
    "C140_in_work_partial",
    "C140_in_work_refuted"
   ],
   "note": "MainModel. Refuted twice: SIGTERM is not caught and drops the requests in work; and a grace period that runs out drops them with status 0. Partial: at an exit with status 0 every request read was answered, or cut off for taking over 15 seconds or panicking, or the whole grace period has passed."
  },
  {
   "property": "C141",
   "status": "partial",
   "theorems": [
    "C141_deaf_partial",
    "C141_deaf_refuted"
   ],
   "note": "MainModel. Refuted twice: the error of ListenAndServe is only logged, so the process stays for any time, and its status is 0 once interrupted. Partial: such a process accepts and answers nothing."
  },
  {
   "property": "C142",
   "status": "partial",
   "theorems": [
    "C142_command_line_partial",
    "C142_command_line_refuted"
   ],
   "note": "MainModel. Refuted: the flags are parsed after the listener's goroutine has been started, so a request can be taken and dropped. Partial: all that is seen of such a process happens at one time (steps of main take none), it exits with status 2 (0 for help), and is never stuck before that."
  },
  {
   "property": "C143",
   "status": "partial",
   "theorems": [
    "C143_answers_partial",
    "C143_answers_refuted"
   ],
   "note": "MainModel, WriteTimeout. Refuted: a request in work for longer than 15 seconds is never answered. Partial: answers are to requests of the same connection, at most 15 seconds old; one outcome per request; an answer ready in time can be sent in every such state; one not sent in time never is."
  },
  {
   "property": "C144",
   "status": "partial",
   "theorems": [
    "C144_units_partial",
    "C144_number",
    "C144_refuted",
    "C144_served_units_partial",
    "C144_machine"
   ],
   "note": "ReaderSpec, over XmlModel, InstanceModel, ReportModel and SetupModel: from the XML of the instance and of the registry to the bytes of the answer. Refuted: the local name of the denominator is looked up from the numerator, so an amount of USD per share is shown without the share. Partial: for well written reports, the measure or numerator is the one reported, and what is shown as denominator is exactly what that mistaken lookup finds. Missing: reports that are not well written."
  },
  {
   "property": "C145",
   "status": "partial",
   "theorems": [
    "C145_network_partial",
    "C145_catalog",
    "C145_served_network_partial",
    "C145_refuted"
   ],
   "note": "ReaderSpec. Refuted: without a readable names.json no network is answered at all. Partial: with one, networks give the name in it or scheme/identifier; the catalogue does so in every case."
  },
  {
   "property": "C146",
   "status": "partial",
   "theorems": [
    "C146_any_report",
    "C146_any_served",
    "C146_refuted",
    "C146_headers_partial",
    "C146_served_headers_partial"
   ],
   "note": "ReaderSpec, with the texts of PeriodSpec. HeaderProps drops the condition on how the report is written: C146_any_report and C146_any_served hold of every report that can be loaded, in terms of its contexts as loaded. Partial: that these are the contexts as written is for well written reports. Refuted without that (PaddedProps): a date with white space around it is shown as it stands, in every language."
  },
  {
   "property": "C147",
   "status": "proved",
   "theorems": [
    "C147_any_report",
    "C147_any_served",
    "C147_order_as_written",
    "C147_in_time",
    "C147_served_as_written"
   ],
   "note": "OrderSpec: by the period as written, then by the number of members; C147_in_time shows for all dates of the form YYYY-MM-DD that this order is that of the calendar. HeaderProps drops the condition on how the report is written: C147_any_report and C147_any_served hold of every report that can be loaded, in terms of its contexts as loaded. C147_order_as_written and C147_served_as_written add, for well written reports, that these are the contexts as the XML has them (C125)."
  },
  {
   "property": "C148",
   "status": "partial",
   "theorems": [
    "C148_bound_partial",
    "C148_absent_partial",
    "C148_never_dropped",
    "C148_refuted"
   ],
   "note": "KeptSpec, on the transition system of CacheModel. Refuted: for every n, n refused requests for grids that do not exist leave n entries, which nothing ever removes. Partial: at most two entries for each different request that was made, and none for a folder that is not there."
  },
  {
   "property": "C149",
   "status": "partial",
   "theorems": [
    "C149_dimensions_loads_partial",
    "C149_calculation_loads_partial",
    "C149_footnotes_loads_partial",
    "C149_grids_served_partial",
    "C149_loads_partial",
    "C149_served_partial",
    "C149_calculation_partial",
    "C149_footnotes_partial",
    "C149_same_partial",
    "C149_refuted",
    "C149_dimensions_refuted"
   ],
   "note": "`SteadySpec.v` says which reports are asked for one thing only: one instance, no concept labelled by two linkbases, one text for each typed member. For those, two answers show the same subject, relationship set, rows, columns, members and cells of the presentation if its role is drawn by at most one linkbase, and the same dimensions if there is at most one definition linkbase (C149_same_partial), for every order of every map and every schedule of the two. If the role is drawn by at most one calculation linkbase they also show the same sums, each with the same terms, columns and members, and in every language in which a cell of both shows a fact it shows the same (`SteadyCalcSpec.v`, C149_calculation_partial). The footnotes of the presentation, of each sum and of each root of the dimensions are the same up to their order, each cell has as many numbers, and a single footnote keeps its number (C149_footnotes_partial, C149_calculation_partial). `C149_loads_partial` and `C149_served_partial` extend the part about the presentation to two loads of a folder, and to what two servers send or one server before and after a restart, when every namespace of the folder has one document (else see C100). `C149_dimensions_loads_partial`, `C149_calculation_loads_partial`, `C149_footnotes_loads_partial` and `C149_grids_served_partial` (`AlikeDimProps.v`) do so for the dimensions, the sums and the footnotes. Refuted in general: the goroutines share two slices without synchronisation, so that Lang and LabelRoles differ from answer to answer (C149_refuted); and with two definition linkbases, one of them empty, the dimensions come in either order (C149_dimensions_refuted). Missing: the order of two or more footnotes, which is that of a map (C19), and the languages of the cells of a calculation, which depend on an order (C86)."
  },
  {
   "property": "C150",
   "status": "partial",
   "theorems": [
    "C150_one",
    "C150_cache_partial",
    "C150_alone",
    "C150_refuted"
   ],
   "note": "NewCacheModel: the calls of NewCache as steps over the variables of the package and a sync.Once. For every interleaving at most one cache is made and every cache returned is that one (C150_one); a call that no other overlaps always returns, sets the mode, and returns the cache if it asks for one (C150_alone). Refuted: NewCache(false) returns nil if a NewCache(true) sets the mode between its own write and read of dry; NewCache(true) returns nil if it is the first. Partial: without a dry call every call returns the cache."
  },
  {
   "property": "C151",
   "status": "partial",
   "theorems": [
    "C151_layout_partial",
    "C151_refuted"
   ],
   "note": "HTML as a forest, written out as tokens; the relation `drawn` says what each node is shown as. By induction on the forest, with the renderer's stacks and table counter as the invariant. Refuted by a cell of one column inside a cell that spans two (nested tables); partial: HTML without such cells."
  },
  {
   "property": "C152",
   "status": "partial",
   "theorems": [
    "C152_catalog_partial",
    "C152_opens_partial",
    "C152_document_partial",
    "C152_fact_partial",
    "C152_refused",
    "C152_refuted"
   ],
   "note": "The served history of C127 with the loader of C118 and the catalog of C124: `sound` says what a folder needs; an answer comes from a load of the folder, possibly an earlier one, and two loads list the same slugs in every order. Refuted when the file of entity names cannot be read: the catalog leaves it aside, every network then answers 500. Partial: with that file readable; facts with the conditions of C126."
  },
  {
   "property": "C153",
   "status": "partial",
   "theorems": [
    "C153_kept_partial",
    "C153_one_load_partial",
    "C153_refuted",
    "C153_page_partial"
   ],
   "note": "`ChangeModel.v` lets every step of a request see any of the worlds there are while the server runs (`services_over`); the cache is that of C53 with any services. Proved: on an idle server a page that has been the only answer so far is the only answer from then on, in memory and over HTTP (`C153_kept_partial`, `C153_page_partial`), and if the first request about a folder was alone and succeeded, one load of the folder explains it and all later answers (`C153_one_load_partial`). Refuted: two first requests that overlap can each load the folder, and the idle server then keeps a catalog of the old files beside a grid of the new ones (`C153_refuted`). Missing from the partial theorems: first requests that overlap."
  },
  {
   "property": "C154",
   "status": "partial",
   "theorems": [
    "C154_documents_partial",
    "C154_concepts_partial",
    "C154_units",
    "C154_names",
    "C154_refuted"
   ],
   "note": "`TaxonomySpec.v` says which file of the machine an address means, in terms of places (C64) and a file system in which a place has one content; SetupModel has the path arithmetic of main.go and global.go. `C154_documents_partial` identifies the `known` schemas that C115 to C125 speak of with those files, `C154_concepts_partial` the concept of every reference with the declaration there, `C154_units` and `C154_names` the other two global files. Refuted: an address with `..` is read from outside of the taxonomy set. Missing from the partial theorems: such addresses, and declarations that declare namespaces themselves (C107)."
  },
  {
   "property": "C155",
   "status": "partial",
   "theorems": [
    "C155_files_partial",
    "C155_directories_partial",
    "C155_start",
    "C155_ends_partial",
    "C155_pages",
    "C155_confined",
    "C155_folders_refuted",
    "C155_directories_refuted"
   ],
   "note": "BrowserModel: net/http's StripPrefix, FileServer and Dir as NewRouter combines them, by their documentation and code (Go 1.22), on a machine that says what is at each path; BrowserSpec: addresses of names, places (C64), relative references (RFC 3986) and a client that follows redirects through the router of C123. `C155_pages` says what every page with status 200 is, `C155_confined` is noninterference for everything outside of the directory (all methods and addresses), `C155_start`, `C155_files_partial` and `C155_directories_partial` say what is shown, `C155_ends_partial` that redirects end. Refuted: files in a directory `folders` are hidden by the interface of the reports, and the directory `a?b` is redirected to `a?b/`, which is another address. Missing from the partial theorems: those names (files may have any other name without NUL; directories and ends: letters, digits and `-._~`)."
  },
  {
   "property": "C156",
   "status": "partial",
   "theorems": [
    "C156_presentation_partial",
    "C156_calculation_partial",
    "C156_definition_partial",
    "C156_rows_refuted",
    "C156_members_refuted",
    "C156_typed_domains_refuted"
   ],
   "note": "No new model; LangSpec says which concepts a grid shows (rows, the dimensions and explicit members of its columns, for root domains also dimensions and default members). For each of the three grids: the label roles are exactly those of these concepts (a definition grid may add those of the dimensions of links without roots), the languages are among theirs, and are all of theirs if any two of the concepts with a label role have it in the same languages. Refuted without that condition (C36, here for the rows of a grid), for members of effective domains other than defaults (C91), and for typed domains, whose labels are shown but not collected."
  },
  {
   "property": "C157",
   "status": "partial",
   "theorems": [
    "C157_ends_partial",
    "C157_endless_partial",
    "C157_refuted"
   ],
   "note": "TypedModel: the loop of hydrateTypedMembers, one call of encoding/xml's `Token` after the other; it ends at io.EOF only. A document decoder with a CharsetReader accepts an XML declaration of another encoding wherever it stands (Go 1.22); the decoder of the typed member has none, fails, and fails again in every later call. `C157_refuted`: with such a declaration inside a typed member the loop never ends. `C157_endless_partial` says exactly when it does not end; `C157_ends_partial` that it ends otherwise, with the result of InstanceModel's `hydrate_typed_members`, on which the other theorems rest."
  },
  {
   "property": "C158",
   "status": "partial",
   "theorems": [
    "C158_partial",
    "C158_refuted"
   ],
   "note": "No new model; SizeSpec says how long a token is when written as short as possible. `C158_partial`: if no cell spans more than n columns, the rendering is at most 4n times as long as the text block. `C158_refuted`: a cell of 33 bytes that claims to span 10^18 columns has a rendering of 4 * 10^18 bytes, as every column gets a cell of its own. Missing from the partial theorem: a bound that does not depend on the spans, which there is not."
  },
  {
   "property": "C159",
   "status": "partial",
   "theorems": [
    "C159_exactly_partial",
    "C159_refuted"
   ],
   "note": "No new model. `C159_exactly_partial`: any two calls of GetLabel for a concept, each visiting the label linkbases in its own order, show the same label roles, languages and texts exactly if no two linkbases give the concept different texts in the same role and language. `C159_refuted`: with two linkbases that do, the label depends on the order of a map. Missing: nothing else; the condition is exact. It also shows that the simplification about GetLabel in 3.5 only matters for such linkbases."
  },
  {
   "property": "C160",
   "status": "partial",
   "theorems": [
    "C160_partial",
    "C160_returned_partial",
    "C160_elsewhere",
    "C160_ends",
    "C160_refuted",
    "C160_overlap_refuted"
   ],
   "note": "WriteModel: WriteFile by system calls (open with truncation, pieces of a write at the call's own offset, return) on a shared file system, any number of calls, any failure, a crash anywhere. Refuted twice: a crash after the truncation leaves neither the old content nor the data, and two calls at the same time may leave a mixture although both succeed. Partial, for a file only one call is for: what each result says about the file, what a crash may leave, other files unchanged, every call ends (an invariant over runs, a measure)."
  },
  {
   "property": "C161",
   "status": "proved",
   "theorems": [
    "C161_catalog",
    "C161_document"
   ],
   "note": "No new model: ServerModel, CacheModel and CatalogModel. The catalog's bytes are read back as JSON; discovery is shown to keep the document it found (induction over its run), so DocumentName is the entry file's name exactly for inline entry files; the renderable route for that name sends the document's bytes."
  },
  {
   "property": "C162",
   "status": "partial",
   "theorems": [
    "C162_order_partial",
    "C162_served_order_partial",
    "C162_refuted"
   ],
   "note": "No new model. Refuted: a dimension used in the segment of one column and in the scenario of another has two rows that look the same. Partial: the rows at the margin come first and in href order, are about exactly the explicit dimensions of the columns (where typed members are simple, C31), at most two per dimension and at most one unless it is used in both places; for every report (order_partial) and for the running server (served_order_partial). By an invariant of makeIndents (what it appends is indented, what it drops it drops altogether) and by counting in the sorted keys."
  },
  {
   "property": "C163",
   "status": "proved",
   "theorems": [
    "C163_catalog",
    "C163_network",
    "C163_fact",
    "C163_bytes"
   ],
   "note": "No new model: JsonModel's writer and the answers of the running server. InertSpec says what such a text is (the UTF-8 encodings of scalar values from 32 on, other than the five); every writer is shown to keep to it, field by field, and the theorems say so of each kind of 200 answer after any history; C163_bytes says what it means for the bytes. Proved."
  },
  {
   "property": "C164",
   "status": "proved",
   "theorems": [
    "C164_catalog",
    "C164_heading"
   ],
   "note": "No new model. Two loads of one folder may differ (C100, maps, goroutines), but not in the entities of their contexts, which do not depend on what names mean, nor in their role types, nor in the document (`SameProofs.v`); the lists made of these are canonical (C07, C08), so the catalogs of any two histories have the same bytes, and one address leads to the same role and entity. Proved for the running server."
  },
  {
   "property": "C165",
   "status": "partial",
   "theorems": [
    "C165_loads_partial",
    "C165_served_partial",
    "C165_same_partial",
    "C165_refuted"
   ],
   "note": "No new model. Refuted: two label linkbases that call a concept differently. Partial: for the reports of C149 (one instance, no concept labelled by two linkbases, one text per typed member) all computations come to the same outcome, so that all answers have the same bytes, footnotes included. By the lemmas of `SteadyProofs.v`. `C165_loads_partial` and `C165_served_partial` extend this to two loads of a folder, and to two servers or one server before and after a restart, when every namespace of the folder has one document (else two loads may differ, C100): then two loads have equal instances, give equal answers to every name and href, have the same label linkbases, and documents that agree as maps (`AlikeProofs.v`). Missing: reports outside these bounds."
  },
  {
   "property": "C166",
   "status": "proved",
   "theorems": [
    "C166_table",
    "C166_loads",
    "C166_served",
    "C166_grids",
    "C166_grids_loads",
    "C166_grids_served"
   ],
   "note": "No new model. `TableFactSpec.v` says what an answer about a fact shows (its concept, the period of its context, its value) and when a network agrees with it: if the context is about the subject of the network and the concept is declared and not abstract, then each row of the concept has a cell with the same value, under the same period. Both always have the texts that belong to no language, so these are compared; the answer about a fact has no others. `C166_table` proves it for one load, by C14 (every fact has its column) and because with one instance all ways to find and write a fact agree (`SteadyProofs.v`); `C166_loads` and `C166_served` for two loads of a folder and for what two servers send, when every namespace of the folder has one document (else see C100). `TableGridSpec.v` says the same of the rows of each sum (its terms, then the sum) and of each root of the dimensions (the root, then its items); `C166_grids`, `C166_grids_loads` and `C166_grids_served` prove it."
  },
  {
   "property": "C167",
   "status": "proved",
   "theorems": [
    "C167_refusals",
    "C167_served",
    "C167_folders",
    "C167_networks"
   ],
   "note": "No new model: the handlers over the response writer (WebModel), the router and the file server (BrowserModel). `ErrorSpec.v` says what it is to be sent as plain text. `C167_refusals` goes through all answers of `serve`; the two outcomes of the router without a handler are unreachable, as the file server has every path. `C167_served` says it of the running server. `C167_folders` and `C167_networks` join this with C163: after any history, what is sent about a folder is a refusal as plain text, a success without markup, or the inline document of the folder under its own name."
  },
  {
   "property": "C168",
   "status": "proved",
   "theorems": [
    "C168_listed"
   ],
   "note": "The converse of C124, for the bytes that are sent. No new model: the pair a page is about is searched in the two lists the catalog shows, and these are the same for every load (`SameProofs.v`); the name comes from the same table of names. `ListedSpec.v` says what it is for a catalog to list a role and an entity, `C168_listed` joins the two answers. It is about the two lists; that the map of addresses has an entry for every entity and role is C124."
  },
  {
   "property": "C169",
   "status": "partial",
   "theorems": [
    "C169_refuted",
    "C169_address_partial"
   ],
   "note": "Refuted: the map of addresses has one entry for a role, the lists and the search for a page take a role once for each of its definitions (`C169_refuted`). With one definition for each role (`AddressSpec.v`) the address is there, under the page's own entity and role, as read from the bytes of the catalog (`C169_address_partial`). Missing: roles with two definitions."
  }
 ]
}
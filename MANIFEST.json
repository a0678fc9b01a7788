{
 "claims": [
  {
   "property": "C01",
   "status": "proved",
   "theorems": [
    "C01_event_state_machine",
    "C01_illegal_request"
   ],
   "note": "For every well-formed document and every state (reachable or not)."
  },
  {
   "property": "C02",
   "status": "proved",
   "theorems": [
    "C02_player_iff_active",
    "C02_create_delete_alternate"
   ],
   "note": "For every reachable state."
  },
  {
   "property": "C03",
   "status": "partial",
   "theorems": [
    "C03_media_clock",
    "C03_object_clock_partial",
    "C03_refuted"
   ],
   "note": "Full for media; for contexts and switches on regular histories; refuted in general (a context stopped by a link while it is being paused)."
  },
  {
   "property": "C04",
   "status": "partial",
   "theorems": [
    "C04_at_most_once",
    "C04_never_early",
    "C04_queue_in_order",
    "C04_due_at_tick_partial",
    "C04_not_forgotten",
    "C04_refuted"
   ],
   "note": "At most once, never early, in order and not forgotten, for every history of less than 2^64-1 ns; at the tick that reaches the deadline all due actions are evaluated unless one of them pauses or ends the object, in which case the rest are lost: the full claim is refuted."
  },
  {
   "property": "C05",
   "status": "partial",
   "theorems": [
    "C05_stop_content_partial",
    "C05_stop_stage",
    "C05_stop_returns",
    "C05_refuted"
   ],
   "note": "Full for documents without switches and without links reacting to pauses/resumptions; for every document, everything on stage below the stopped object is put to sleep, and stopping never aborts; refuted in general (a switch started through a switchPort survives its context)."
  },
  {
   "property": "C06",
   "status": "partial",
   "theorems": [
    "C06_pause_resume_partial",
    "C06_round_trip_partial",
    "C06_refuted_switch",
    "C06_refuted_nested"
   ],
   "note": "Exact effect of pause/resume and the round trip for documents without switches and without links reacting to pauses; refuted for switches (the selection is forgotten) and for occurring media inside paused nested contexts."
  },
  {
   "property": "C07",
   "status": "partial",
   "theorems": [
    "C07_counter_is_starts_minus_ends",
    "C07_counter_is_active_children_partial",
    "C07_natural_end_partial",
    "C07_refuted"
   ],
   "note": "Exact accounting proved for all histories; equality with the number of active children for regular histories; refuted in general (restarting a paused media)."
  },
  {
   "property": "C08",
   "status": "proved",
   "theorems": [
    "C08_link_soundness"
   ],
   "note": "For every document, state and action whose evaluation returns."
  },
  {
   "property": "C09",
   "status": "proved",
   "theorems": [
    "C09_link_completeness"
   ],
   "note": "For every document, state and action whose evaluation returns."
  },
  {
   "property": "C10",
   "status": "partial",
   "theorems": [
    "C10_run_to_completion_partial",
    "C10_refuted"
   ],
   "note": "Document order and run-to-completion for the immediate actions of every link; refuted for the delayed actions of a link, which are queued in reverse document order."
  },
  {
   "property": "C11",
   "status": "proved",
   "theorems": [
    "C11_evaluation_terminates",
    "C11_api_terminates",
    "C11_cycle_diverges"
   ],
   "note": "Trigger graph in TermSpec.v; cycles really diverge (third theorem)."
  },
  {
   "property": "C12",
   "status": "partial",
   "theorems": [
    "C12_truth_value",
    "C12_defined_partial",
    "C12_refuted"
   ],
   "note": "Whenever evaluation returns it is the classical truth value and changes nothing; it returns for every predicate without negation; evaluating a negation aborts (refuted)."
  },
  {
   "property": "C13",
   "status": "proved",
   "theorems": [
    "C13_value",
    "C13_no_value",
    "C13_unique"
   ],
   "note": "For every document, state and string."
  },
  {
   "property": "C14",
   "status": "proved",
   "theorems": [
    "C14_switch_selection"
   ],
   "note": "Full."
  },
  {
   "property": "C15",
   "status": "partial",
   "theorems": [
    "C15_attribution_partial",
    "C15_refuted_bounds",
    "C15_refuted_successive"
   ],
   "note": "Every set action in every cascade: succeeds unless the property is being set, and then has exactly the stated effect, except that bounds/location/size also assign the coordinates. The two remaining parts of the claim are false of the code (refuted)."
  },
  {
   "property": "C16",
   "status": "proved",
   "theorems": [
    "C16_focus_selection",
    "C17_key_dispatch"
   ],
   "note": "Full. The order is dictionary order of the index strings (so \"10\" precedes \"2\")."
  },
  {
   "property": "C17",
   "status": "proved",
   "theorems": [
    "C17_key_dispatch",
    "C17_ignored_keys"
   ],
   "note": "Full."
  },
  {
   "property": "C18",
   "status": "proved",
   "theorems": [
    "C18_start",
    "C18_stop",
    "C18_refused_when_stopped",
    "C18_document_iff_playing"
   ],
   "note": "For every reachable formatter state and every file."
  },
  {
   "property": "C19",
   "status": "proved",
   "theorems": [
    "C19_end_of_presentation",
    "C19_tick_delivery",
    "C19_key_delivery"
   ],
   "note": "For every reachable formatter state."
  },
  {
   "property": "C20",
   "status": "proved",
   "theorems": [
    "C20_painting_order",
    "C20_every_media_once",
    "C20_layer"
   ],
   "note": "For every document and state."
  },
  {
   "property": "C21",
   "status": "proved",
   "theorems": [
    "C21_unique",
    "C21_lookup",
    "C21_add",
    "C21_child"
   ],
   "note": "For every construction history and allocator. Composition::addChild does not reject a duplicate id but aborts (C21_child: it never succeeds)."
  },
  {
   "property": "C22",
   "status": "proved",
   "theorems": [
    "C22_unique",
    "C22_whole_content",
    "C22_get",
    "C22_add"
   ],
   "note": "For every construction history and allocator."
  },
  {
   "property": "C23",
   "status": "partial",
   "theorems": [
    "C23_set_get",
    "C23_cleaned_once_partial",
    "C23_refuted"
   ],
   "note": "For every history that does not remove a key without value; such a removal is undefined behaviour (aux-ginga.cpp:793), refuted."
  },
  {
   "property": "C24",
   "status": "partial",
   "theorems": [
    "C24_list_parsing_partial",
    "C24_trailing_item",
    "C24_refuted"
   ],
   "note": "Full except for a trailing empty item, which is never counted (refuted)."
  },
  {
   "property": "C25",
   "status": "proved",
   "theorems": [
    "C25_table_parsing"
   ],
   "note": "For every table whose keys and values contain no comma, equals sign or NUL (quotes inside values are fine) and whose keys have no surrounding white space."
  },
  {
   "property": "C26",
   "status": "partial",
   "theorems": [
    "C26_seconds_partial",
    "C26_clock_partial",
    "C26_decimals_partial",
    "C26_rejects_partial",
    "C26_refuted"
   ],
   "note": "Exact up to 4611686018 s, binary64 rounding included; decimals with fraction and exponent up to one nanosecond and a relative 2^-51; accepted strings characterised; refuted: empty numbers are accepted as 0, larger numerals are inexact, negative ones are undefined behaviour."
  },
  {
   "property": "C27",
   "status": "proved",
   "theorems": [
    "C27_range",
    "C27_pixel",
    "C27_number",
    "C27_percent"
   ],
   "note": "Including that v% is v*base/100 rounded to nearest, with binary64 rounding modelled."
  },
  {
   "property": "C28",
   "status": "proved",
   "theorems": [
    "C28_set",
    "C28_reset",
    "C35_start"
   ],
   "note": "For every property name and value, including composite and unknown properties; effects described by PlayerSpec.v (pixels, percentages, defaults, aliases). bottom percentages are relative to the player's own height (finding 43)."
  },
  {
   "property": "C29",
   "status": "partial",
   "theorems": [
    "C29_moves_towards_target",
    "C29_others_unchanged",
    "C29_arrival_partial",
    "C29_refuted"
   ],
   "note": "Monotone, no overshoot and exactness on completion for every redraw schedule and every set of requests for distinct properties. Arrival by the end of the duration: proved for up to a million redraws (binary64 rounding errors stay below half a pixel), refuted in general (C29_refuted: increments below half an ulp never move the value)."
  },
  {
   "property": "C30",
   "status": "partial",
   "theorems": [
    "C30_choice",
    "C30_mime",
    "C30_extensions_partial",
    "C30_refuted"
   ],
   "note": "The choice is characterised for all strings; refuted: several known extensions (css, smil, ...) have no player and abort, and the SVG player is never chosen."
  },
  {
   "property": "C31",
   "status": "proved",
   "theorems": [
    "C31_parameters"
   ],
   "note": "Equivalence with a separate inductive specification."
  },
  {
   "property": "C32",
   "status": "partial",
   "theorems": [
    "C32_region_in_parent_partial",
    "C32_pushed",
    "C32_refuted"
   ],
   "note": "For whole percentages with one side and the size of each axis adding up to at most 100: inside the parent up to one pixel (rounding), exactly for sizes that are multiples of 100. Refuted in general: a missing width, or left, width and right together."
  },
  {
   "property": "C33",
   "status": "proved",
   "theorems": [
    "C33_clone",
    "C33_same_behaviour",
    "C33_delete"
   ],
   "note": "On a heap model of lib/Predicate.cpp."
  },
  {
   "property": "C34",
   "status": "partial",
   "theorems": [
    "C34_parser_refuted",
    "C34_player_refuted",
    "C34_player_partial",
    "C34_parsed_partial",
    "C05_stop_returns"
   ],
   "note": "False of the code: witnesses for the parser and for the player. Positive part: with a document as in SafeSpec.v (calmDoc, calmInit: no switches, accepted values, no link triggered by an event of the settings in a context where the settings appear, links that start, stop and abort objects, stop and abort anchors and set properties), no call of the player's API aborts, in any history of calls; and documents read by the parser that the checker of SafeCheck.v accepts are such documents; stopping never aborts."
  },
  {
   "property": "C35",
   "status": "proved",
   "theorems": [
    "C35_start"
   ],
   "note": "At the level of one START transition, from every state with the media asleep; sleeping contexts around it are awoken."
  },
  {
   "property": "C36",
   "status": "partial",
   "theorems": [
    "C36_start_context_partial",
    "C36_refuted"
   ],
   "note": "Everything proved for one START transition, with the ports under the condition that the context was never started from one of its components; refuted without it (fromport is never reset)."
  },
  {
   "property": "C37",
   "status": "proved",
   "theorems": [
    "C37_natural_end"
   ],
   "note": "For every reachable state."
  },
  {
   "property": "C38",
   "status": "partial",
   "theorems": [
    "C38_start_at_anchor_partial",
    "C38_past_anchor_refuted",
    "C38_short_anchor_refuted"
   ],
   "note": "Proved: exactly what the start does to events, schedule and player, for every anchor and state. False of the code, with witnesses: an anchor that is already over is started too and never stopped; the duration is cut to whole seconds, so a media started at an anchor of less than a second ends at the first tick."
  },
  {
   "property": "C39",
   "status": "partial",
   "theorems": [
    "C39_switch_ports_partial",
    "C39_stop_refuted",
    "C39_crash_refuted"
   ],
   "note": "Proved: exactly which ports repeat which actions, throughout every cascade. False of the code, with witnesses: ports repeat what happens to any event of a mapped component, so the end of an anchor stops the whole media, and the begin of an anchor aborts the player if the switch was started as a whole."
  },
  {
   "property": "C40",
   "status": "proved",
   "theorems": [
    "C40_built_documents"
   ],
   "note": "Connects the construction operations to the hypotheses (wf_doc, init_ok) of the engine theorems."
  },
  {
   "property": "C41",
   "status": "proved",
   "theorems": [
    "C41_parsed_documents_closed",
    "C41_parsed_documents_playable",
    "C41_formatter",
    "C41_documents_closed",
    "C41_documents_playable",
    "C41_documents_formatter",
    "C41_orphan_refuted",
    "C41_foreign_rule_refuted"
   ],
   "note": "Props_Parsed.v has the claim for documents whose compiled rules choose among their own components; Props_Own.v replaces that by a condition on the XML alone (rulesWritten: what a bindRule or defaultComponent names is written in the switch as a context, a switch or a media of its own). Both conditions are shown to be needed: the parser itself does not guarantee them (findings 57, 58)."
  },
  {
   "property": "C42",
   "status": "proved",
   "theorems": [
    "C42_links_compiled"
   ],
   "note": "Vocabulary in CompileSpec.v; links to connectors of imported documents are counted and placed but their contents are not specified. The operator of a compound condition plays no part (the code ignores it, and so does the statement): the predicate is always the conjunction of the statements around the role."
  },
  {
   "property": "C43",
   "status": "proved",
   "theorems": [
    "C43_only_grammatical_documents_accepted"
   ],
   "note": "The grammar is stated separately in ParserSpec.v; the model of the syntax table is checked against it by computation."
  },
  {
   "property": "C44",
   "status": "proved",
   "theorems": [
    "C44_ids_unique"
   ],
   "note": "For every tree and import oracle."
  },
  {
   "property": "C45",
   "status": "proved",
   "theorems": [
    "C45_objects_mirror_elements"
   ],
   "note": "Vocabulary in TreeSpec.v; under settingsPlain, which C41_orphan_refuted shows is needed for references to the settings."
  },
  {
   "property": "C46",
   "status": "proved",
   "theorems": [
    "C46_integer",
    "C46_integer_failure",
    "C46_boolean"
   ],
   "note": "For every string without NUL, which is what a C string can be."
  },
  {
   "property": "C47",
   "status": "partial",
   "theorems": [
    "C47_references",
    "C47_wellformed_partial",
    "C47_playable_partial",
    "C47_wellformed_refuted",
    "C47_playable_refuted"
   ],
   "note": "The full claim is false: a link may name an event that does not exist, which is kept as a null pointer and crashes the player. Proved for every table whose links name events that exist, which is exactly when all references are resolved."
  },
  {
   "property": "C48",
   "status": "proved",
   "theorems": [
    "C48_document_depicts_table"
   ],
   "note": "Vocabulary in LtabSpec.v. What the table says is read in the order lua_next gives; the operands of and/or predicates are kept in reverse order, which the specification states."
  },
  {
   "property": "C49",
   "status": "proved",
   "theorems": [
    "C49_ports_compiled"
   ],
   "note": "Vocabulary in PortSpec.v. Interfaces are resolved when the composition is closed: if a media has both an anchor and a property of the name, the anchor is taken if it is known by then, so a media element that adds an anchor of that name later (through refer) does not change the port; the statement allows either."
  },
  {
   "property": "C50",
   "status": "proved",
   "theorems": [
    "C50_rules_compiled"
   ],
   "note": "Vocabulary in RuleSpec.v. Describes the predicates of rules of the document itself; of a bindRule to an imported rule only the component is described. If the name is that of a context, a switch or a media of its own written in the switch, the component is proved to be one of the switch. A negated rule (operator not) is compiled as written, but the player asserts when it evaluates one (see the findings)."
  },
  {
   "property": "C51",
   "status": "proved",
   "theorems": [
    "C51_destroy_safe",
    "C51_destroy_all_noSwitch",
    "C51_stop_returns",
    "C51_switch_leaks_refuted"
   ],
   "note": "As the statement says, the tree is entirely deleted in documents without switches alone: the destructor of a switch does not delete what is in it, which leaks and may go on playing (refuted). The deletion of the predicates of links and rules is not modelled."
  }
 ]
}
# A Rocq model of the ginga NCL engine

Target: TeleMidia/ginga at the pinned commit in `/repo` (C++, `lib/`).
Prover: Coq 8.16.1, stdlib + std++ (`gmap`, no axioms). All files live in
`rocq/theories/`, logical root `Verif`.

Reading order for a reviewer: `properties.jsonl` (English), the `Props_*.v` files
(theorem statements, each followed by `Print Assumptions` and by examples that meet
its hypotheses), the specification files they mention (`*Spec.v`: `Spec`,
`PredSpec`, `LinkSpec`, `InterSpec`, `StopSpec`, `TermSpec`, `ParseSpec`,
`AnimSpec`, `PlayerSpec`, `StartSpec`, `MediaSpec`, `UserSpec`, `BuildSpec`,
`ParserSpec`, `ValuesSpec`), then the model files (section 3).

## 1. How the code is modelled

The model is executable Gallina. Each definition cites the file and lines it
transcribes and names its simplifications.

* **Outcomes.** Every engine function has type `M A := st -> outcome A`, where an
  outcome is `Ok a s`, `Crash c` or `NoFuel`. `Crash` covers
  `g_assert*`/`g_assert_not_reached` (`CAssert`), `ERROR` (`CError`, glib's
  `g_error` aborts), and C++ undefined behaviour such as a null or dangling
  dereference or an out-of-range float-to-integer cast (`CUB`).
  `NoFuel` is the artefact of writing a possibly diverging C++ loop in Gallina;
  theorems either quantify over all fuel and speak about `Ok`, or prove that some
  fuel suffices.
* **Static document / dynamic state.** After parsing, the object tree, the
  events, links, ports, rules and aliases never change; they form `doc`
  (immutable). Everything that changes at run time (event states and
  parameters, clocks, properties, delayed actions, awake counters, switch
  selection, players, pending focus) is in `st`. `Builder.v` models the
  construction phase, where all of it is mutable; `C40` and `C41` connect the two:
  what the construction operations, and the parser, produce meets the hypotheses
  (`wf_doc`, `init_ok`) under which the engine theorems are stated.
* **Time** is `uint64_t` nanoseconds: `N` with addition modulo 2^64;
  `GINGA_TIME_NONE` is 2^64-1.
* **`std::set<T*>`** is iterated in address order by the C++; in the model the
  sets are lists in an arbitrary order (engine) or sorted by an arbitrary address
  function (builder), and theorems quantify over all of them, hence over all
  iteration orders and allocators.
* **Recursion** between `Event::transition` and `Document::evalAction` is tied by
  a fuel-indexed mutual fixpoint (`tr`, `loop`), the bodies being ordinary
  functions parameterised by the recursive calls.
* **Ghost log.** `st` carries a list of observations (transitions completed,
  ticks delivered, actions begun, delayed actions triggered). No function reads
  it; it only serves to state history properties.
* **Floating point.** `double` values are rationals rounded by an explicit
  binary64 rounding function (`rnd`, round to nearest, ties to even; no overflow or
  subnormals). No primitive floats are used.
* **External code** is a record of arbitrary functions, so that theorems hold
  for every behaviour of it: `ext` (which colour strings gdk accepts, whether the
  HTML player is compiled in, what `strtod` makes of literals outside the decimal
  grammar) and `penv` (libxml's tree of an imported file, URI resolution,
  fontconfig, `printf("%g")`). Effects of media decoders and scripts reach the
  engine as environment operations (`player reports EOS`, `NCLua posts an event`).

## 2. Plan and outcome per property

Every property is expressible in the model; none is "not applicable". `_partial`
marks a theorem that covers part of its property, `_refuted` a machine-checked
counterexample to the full English statement.

| id | property | status | modelled and proved how |
|----|----------|--------|-------------------------|
| C01 | Event state machine | proved | Event::transition with before/afterTransition of the four classes; case analysis and frame lemmas on the state of the event. For every well-formed document and every state (reachable or not). |
| C02 | Media player lifecycle | proved | player field of media; inductive invariant over all engine calls (fuel induction). For every reachable state. |
| C03 | Object clock | partial | object clock and log of transitions and ticks; the clock is a function of the log. Full for media; for contexts and switches on regular histories; refuted in general (a context stopped by a link while it is being paused). |
| C04 | Delayed actions fire once, on time | partial | addDelayedAction and Object::sendTick; invariants of the queue over histories, functional specification of a tick. At most once, never early, in order and not forgotten, for every history of less than 2^64-1 ns; at the tick that reaches the deadline all due actions are evaluated unless one of them pauses or ends the object, in which case the rest are lost: the full claim is refuted. |
| C05 | Stopping a composition stops its content | partial | STOP/ABORT of all classes; total correctness by induction on the tree. Full for documents without switches and without links reacting to pauses/resumptions; for every document, everything on stage below the stopped object is put to sleep, and stopping never aborts; refuted in general (a switch started through a switchPort survives its context). |
| C06 | Pause and resume propagate | partial | PAUSE/RESUME; exact effect by induction on the tree. Exact effect of pause/resume and the round trip for documents without switches and without links reacting to pauses; refuted for switches (the selection is forgotten) and for occurring media inside paused nested contexts. |
| C07 | Natural end accounting | partial | awake counter; counting invariant over the log. Exact accounting proved for all histories; equality with the number of active children for regular histories; refuted in general (restarting a paused media). |
| C08 | Link soundness | proved | evalAction; refinement to a declarative big-step semantics of links (LinkSpec.v). For every document, state and action whose evaluation returns. |
| C09 | Link completeness | proved | evalAction; same semantics, converse direction. For every document, state and action whose evaluation returns. |
| C10 | Run-to-completion order | partial | evalAction, evalActionInContext; order of the log. Document order and run-to-completion for the immediate actions of every link; refuted for the delayed actions of a link, which are queued in reverse document order. |
| C11 | Action evaluation terminates | proved | evalAction and all API calls; well-founded measure on an acyclic trigger graph, divergence for a cycle. Trigger graph in TermSpec.v; cycles really diverge (third theorem). |
| C12 | Predicate evaluation | partial | evalPredicate; structural induction against classical truth values. Whenever evaluation returns it is the classical truth value and changes nothing; it returns for every predicate without negation; evaluating a negation aborts (refuted). |
| C13 | Property references | proved | evalPropertyRef; string lemmas. For every document, state and string. |
| C14 | Switch selection | proved | Switch START; rule choice. Full. |
| C15 | Attribution | partial | attribution events, Media::setProperty; frame and value lemmas. Every set action in every cascade: succeeds unless the property is being set, and then has exactly the stated effect, except that bounds/location/size also assign the coordinates. The two remaining parts of the claim are false of the code (refuted). |
| C16 | Focus selection | proved | updateCurrentFocus; fold-min lemma. Full. The order is dictionary order of the index strings (so "10" precedes "2"). |
| C17 | Key dispatch | proved | Media::sendKey; specification of the collected events. Full. |
| C18 | Formatter life cycle | proved | Formatter; state machine over all call sequences. For every reachable formatter state and every file. |
| C19 | End of presentation | proved | Formatter; invariants over all call sequences. For every reachable formatter state. |
| C20 | Painting order | proved | g_list_insert_sorted with zcmp; sorted permutation. For every document and state. |
| C21 | Object identity | proved | Builder.v; invariant over construction operations. For every construction history and allocator. Composition::addChild does not reject a duplicate id but aborts (C21_child: it never succeeds). |
| C22 | Event identity | proved | Builder.v; invariant over construction operations. For every construction history and allocator. |
| C23 | User data ownership | partial | UserData with a log of clean-ups; invariant over operation sequences. For every history that does not remove a key without value; such a removal is undefined behaviour (aux-ginga.cpp:793), refuted. |
| C24 | List parsing | partial | xstrsplit, try_parse_list; round trips. Full except for a trailing empty item, which is never counted (refuted). |
| C25 | Table parsing | proved | try_parse_table; round trip. For every table whose keys and values contain no comma, equals sign or NUL (quotes inside values are fine) and whose keys have no surrounding white space. |
| C26 | Time parsing | partial | try_parse_time with binary64; exactness lemmas. Exact up to 4611686018 s, binary64 rounding included; decimals with fraction and exponent up to one nanosecond and a relative 2^-51; accepted strings characterised; refuted: empty numbers are accepted as 0, larger numerals are inexact, negative ones are undefined behaviour. |
| C27 | Percent and pixel parsing | proved | parse_percent, parse_pixel with binary64; rounding lemmas. Including that v% is v*base/100 rounded to nearest, with binary64 rounding modelled. |
| C28 | Player properties | proved | Player tables and setProperty; map lemmas and finite sweeps. For every property name and value, including composite and unknown properties; effects described by PlayerSpec.v (pixels, percentages, defaults, aliases). bottom percentages are relative to the player's own height (finding 43). |
| C29 | Animation | partial | PlayerAnimator update with binary64; invariant over redraw schedules, error accumulation bound. Monotone, no overshoot and exactness on completion for every redraw schedule and every set of requests for distinct properties. Arrival by the end of the duration: proved for up to a million redraws (binary64 rounding errors stay below half a pixel), refuted in general (C29_refuted: increments below half an ulp never move the value). |
| C30 | Choice of player | partial | createPlayer; characterisation over all strings. The choice is characterised for all strings; refuted: several known extensions (css, smil, ...) have no player and abort, and the SVG player is never chosen. |
| C31 | Parameter resolution | proved | resolveParameter; equivalence with an inductive specification. Equivalence with a separate inductive specification. |
| C32 | Region nesting | partial | pushRegion; rounding lemmas. For whole percentages with one side and the size of each axis adding up to at most 100: inside the parent up to one pixel (rounding), exactly for sizes that are multiples of 100. Refuted in general: a missing width, or left, width and right together. |
| C33 | Predicate copies | proved | PredHeap.v (mutable heap); separation of the copy. On a heap model of lib/Predicate.cpp. |
| C34 | No abort | partial | everything above; witnesses of aborts; positive part for the documents of SafeSpec.v (SafeInv.v, SafeLoop.v, SafeTick.v, FactsSafe.v): an invariant K (a player exists exactly when its object is awake, an object awake has its parent awake, the queue names scheduled anchors of its own object, properties hold accepted values) under which every assertion met by a transition, a tick, a key, a resize and a link is true; a checker, proved sound (SafeCheck.v), shows that documents read by the parser are among them. False of the code: witnesses for the parser and for the player. Positive part: with a document as in SafeSpec.v (calmDoc, calmInit: no switches, accepted values, no link triggered by an event of the settings in a context where the settings appear, links that start, stop and abort objects, stop and abort anchors and set properties), no call of the player's API aborts, in any history of calls; and documents read by the parser that the checker of SafeCheck.v accepts are such documents; stopping never aborts. |
| C35 | Starting a media | proved | Media START; functional specification of the transition. At the level of one START transition, from every state with the media asleep; sleeping contexts around it are awoken. |
| C36 | Starting a context | partial | Context START; functional specification of the transition. Everything proved for one START transition, with the ports under the condition that the context was never started from one of its components; refuted without it (fromport is never reset). |
| C37 | Natural end of a media | proved | Media::sendTick; functional specification of the natural end. For every reachable state. |
| C38 | Starting at an anchor | partial | Media::beforeTransition for an anchor: functional specification of the start, the search in the schedule by induction on it; two witnesses against the rest. Proved: exactly what the start does to events, schedule and player, for every anchor and state. False of the code, with witnesses: an anchor that is already over is started too and never stopped; the duration is cut to whole seconds, so a media started at an anchor of less than a second ends at the first tick. |
| C39 | Switch ports repeat their components | partial | the cascade (as C08-C10), with the list of echoes determined by induction on the ports and mappings; two witnesses against the rest. Proved: exactly which ports repeat which actions, throughout every cascade. False of the code, with witnesses: ports repeat what happens to any event of a mapped component, so the end of an anchor stops the whole media, and the begin of an anchor aborts the player if the switch was started as a whole. |
| C40 | Documents built are playable | proved | Builder.v against Wf.v; invariant over construction operations. Connects the construction operations to the hypotheses (wf_doc, init_ok) of the engine theorems. |
| C41 | Parsed documents are playable | proved | Parser.v against Builder.v and Wf.v; invariants over the traversal of the tree; from C50 and uniqueness of names, the condition on rules is reduced to one on the XML. Props_Parsed.v has the claim for documents whose compiled rules choose among their own components; Props_Own.v replaces that by a condition on the XML alone (rulesWritten: what a bindRule or defaultComponent names is written in the switch as a context, a switch or a media of its own). Both conditions are shown to be needed: the parser itself does not guarantee them (findings 57, 58). |
| C42 | Links are compiled as written | proved | Parser.v; what each element of the cache holds, by induction over the tree; the order of the cache; the store of predicates (chain of compound conditions around each role, framed through the rest of the parse); solveLink, step by step. Vocabulary in CompileSpec.v; links to connectors of imported documents are counted and placed but their contents are not specified. The operator of a compound condition plays no part (the code ignores it, and so does the statement): the predicate is always the conjunction of the statements around the role. |
| C43 | Only grammatical documents are accepted | proved | Syntax.v, Parser.v; induction over the tree. The grammar is stated separately in ParserSpec.v; the model of the syntax table is checked against it by computation. |
| C44 | Ids are unique in accepted documents | proved | Parser.v; invariant on the set of ids. For every tree and import oracle. |
| C45 | The objects of a document mirror its elements | proved | Parser.v; growth relation on graphs, induction over the tree. Vocabulary in TreeSpec.v; under settingsPlain, which C41_orphan_refuted shows is needed for references to the settings. |
| C46 | Integers and booleans are read as written | proved | Num.v; strtoll and case folding, by induction on the string. For every string without NUL, which is what a C string can be. |
| C47 | Documents made from Lua tables are well formed | partial | ParserLua.v; consequence of C48 and of the invariant of construction (C40). The full claim is false: a link may name an event that does not exist, which is kept as a null pointer and crashes the player. Proved for every table whose links name events that exist, which is exactly when all references are resolved. |
| C48 | The document is what the Lua table describes | proved | ParserLua.v; weakest preconditions, induction over the table; later steps leave finished objects alone. Vocabulary in LtabSpec.v. What the table says is read in the order lua_next gives; the operands of and/or predicates are kept in reverse order, which the specification states. |
| C49 | Ports are compiled as written | proved | Parser.v; what the cache holds for the children of each composition, by induction over the tree; frames of the ports of the objects through the rest of the parse; uniqueness of ids (C44) for switchPorts. Vocabulary in PortSpec.v. Interfaces are resolved when the composition is closed: if a media has both an anchor and a property of the name, the anchor is taken if it is known by then, so a media element that adds an anchor of that name later (through refer) does not change the port; the statement allows either. |
| C50 | The rules of switches are compiled as written | proved | Parser.v; what the cache holds for each rule and rule reference, by induction over the tree; uniqueness of ids (C44) identifies the rule named; frames of the rules of the objects through the rest of the parse. Vocabulary in RuleSpec.v. Describes the predicates of rules of the document itself; of a bindRule to an imported rule only the component is described. If the name is that of a context, a switch or a media of its own written in the switch, the component is proved to be one of the switch. A negated rule (operator not) is compiled as written, but the player asserts when it evaluates one (see the findings). |
| C51 | Stopping the player destroys the document safely | proved | Destroy.v: the destructors over a memory in which deleted objects are no longer there; stopping an object only looks at what is in it and at its parent (DestroyFacts.v, stop_both); induction over the tree, siblings having nothing in common. As the statement says, the tree is entirely deleted in documents without switches alone: the destructor of a switch does not delete what is in it, which leaks and may go on playing (refuted). The deletion of the predicates of links and rules is not modelled. |

## 3. Exactly what is modelled

| code | model | not modelled |
|------|-------|--------------|
| `Event.cpp`, `Object.cpp`, `Composition.cpp`, `Context.cpp`, `Switch.cpp`, `Media.cpp`, `MediaSettings.cpp` (run time) | `Engine.v` | `toString`, trace output |
| `Document.cpp` (`evalAction`, `evalPredicate`, `evalPropertyRef`) | `Engine.v`, `Predicate.v` | -- |
| `Document.cpp`, `Object.cpp`, `Composition.cpp`, `Context.cpp`, `Switch.cpp`, `Media.cpp`, `Event.cpp` (construction) | `Builder.v`, `Destroy.v` (destruction) | deletion of the predicates of links and rules |
| `Formatter.cpp` (`start`, `stop`, `resize`, `sendKey`, `sendTick`, painting order) | `Formatter.v` | pixels, the remaining options, the debug overlay, `WebServices` start-up |
| `Predicate.cpp` | `Predicate.v`, `PredHeap.v` (mutable heap) | `toString` |
| `Player.cpp` (property table, mime table, `createPlayer`, `setProperty`, start/stop/pause/resume, focus keys) | `Player.v`, `Engine.v` | surfaces, drawing |
| `PlayerAnimator.cpp` (numeric properties) | `Animator.v` | colours, `transIn`/`transOut` |
| `ParserLua.cpp` | `Lua.v`, `ParserLua.v` | running the script (any value may be returned, as a tree), the limit of Lua on nested C calls (about 200 levels), messages; null events of links are the number 1, which is never an event |
| `PlayerLua.cpp` (aborting pause/resume; posting of events) | `Engine.v` | the Lua machine |
| `aux-ginga.cpp`: `xstr*`, `try_parse_*`, `parse_percent`, `UserData` | `Str.v`, `Num.v`, `UserData.v` | paths and URIs, colours |
| `Parser.cpp` | `Syntax.v` (tables), `Parser.v` (everything between the XML tree and the document) | error messages, libxml |
| `PlayerImage/Video/Text/HTML/SigGen/Svg/Remote.cpp`, `WebServices.cpp`, `aux-gl.cpp` | -- | all of it: thin layers over external libraries |

Concurrency: the engine is single threaded (the formatter is driven by one main
loop). The web services thread and GStreamer's threads only reach it through the
operations above; their own races are outside the model.

## 4. Trusted base

* Coq's kernel, including `vm_compute` (used for witnesses, examples and finite
  sweeps).
* Axioms: none in any property theorem (table below). The seven constants
  `Coq.ssr.ssrunder.Under_rel.*` that the checker lists are the opaque module of
  Coq's own ssreflect library (loaded by std++'s dependencies in the standard
  distribution); no theorem here depends on them.
* The faithfulness of the hand translation, cited line by line, and of the
  oracles `ext`/`penv` as over-approximations of external code.
* No functors, module types, axioms, admitted proofs or disabled checks.
* `seeded/LOG.jsonl` records wrong programs tried against the theorems.

### Assumptions per theorem

| theorem | property | Print Assumptions |
|---|---|---|
| `C01_event_state_machine` | C01 | Closed under the global context |
| `C01_illegal_request` | C01 | Closed under the global context |
| `C02_player_iff_active` | C02 | Closed under the global context |
| `C02_create_delete_alternate` | C02 | Closed under the global context |
| `C03_media_clock` | C03 | Closed under the global context |
| `C03_object_clock_partial` | C03 | Closed under the global context |
| `C03_refuted` | C03 | Closed under the global context |
| `C04_at_most_once` | C04 | Closed under the global context |
| `C04_never_early` | C04 | Closed under the global context |
| `C04_queue_in_order` | C04 | Closed under the global context |
| `C04_due_at_tick_partial` | C04 | Closed under the global context |
| `C04_not_forgotten` | C04 | Closed under the global context |
| `C04_refuted` | C04 | Closed under the global context |
| `C05_stop_content_partial` | C05 | Closed under the global context |
| `C05_stop_stage` | C05 | Closed under the global context |
| `C05_stop_returns` | C05 | Closed under the global context |
| `C05_refuted` | C05 | Closed under the global context |
| `C06_pause_resume_partial` | C06 | Closed under the global context |
| `C06_round_trip_partial` | C06 | Closed under the global context |
| `C06_refuted_switch` | C06 | Closed under the global context |
| `C06_refuted_nested` | C06 | Closed under the global context |
| `C07_counter_is_starts_minus_ends` | C07 | Closed under the global context |
| `C07_counter_is_active_children_partial` | C07 | Closed under the global context |
| `C07_natural_end_partial` | C07 | Closed under the global context |
| `C07_refuted` | C07 | Closed under the global context |
| `C08_link_soundness` | C08 | Closed under the global context |
| `C09_link_completeness` | C09 | Closed under the global context |
| `C10_run_to_completion_partial` | C10 | Closed under the global context |
| `C10_refuted` | C10 | Closed under the global context |
| `C11_evaluation_terminates` | C11 | Closed under the global context |
| `C11_api_terminates` | C11 | Closed under the global context |
| `C11_cycle_diverges` | C11 | Closed under the global context |
| `C12_truth_value` | C12 | Closed under the global context |
| `C12_defined_partial` | C12 | Closed under the global context |
| `C12_refuted` | C12 | Closed under the global context |
| `C13_value` | C13 | Closed under the global context |
| `C13_no_value` | C13 | Closed under the global context |
| `C13_unique` | C13 | Closed under the global context |
| `C14_switch_selection` | C14 | Closed under the global context |
| `C15_attribution_partial` | C15 | Closed under the global context |
| `C15_refuted_bounds` | C15 | Closed under the global context |
| `C15_refuted_successive` | C15 | Closed under the global context |
| `C16_focus_selection` | C16 | Closed under the global context |
| `C17_key_dispatch` | C16 | Closed under the global context |
| `C17_ignored_keys` | C17 | Closed under the global context |
| `C18_start` | C18 | Closed under the global context |
| `C18_stop` | C18 | Closed under the global context |
| `C18_refused_when_stopped` | C18 | Closed under the global context |
| `C18_document_iff_playing` | C18 | Closed under the global context |
| `C19_end_of_presentation` | C19 | Closed under the global context |
| `C19_tick_delivery` | C19 | Closed under the global context |
| `C19_key_delivery` | C19 | Closed under the global context |
| `C20_painting_order` | C20 | Closed under the global context |
| `C20_every_media_once` | C20 | Closed under the global context |
| `C20_layer` | C20 | Closed under the global context |
| `C21_unique` | C21 | Closed under the global context |
| `C21_lookup` | C21 | Closed under the global context |
| `C21_add` | C21 | Closed under the global context |
| `C21_child` | C21 | Closed under the global context |
| `C22_unique` | C22 | Closed under the global context |
| `C22_whole_content` | C22 | Closed under the global context |
| `C22_get` | C22 | Closed under the global context |
| `C22_add` | C22 | Closed under the global context |
| `C23_set_get` | C23 | Closed under the global context |
| `C23_cleaned_once_partial` | C23 | Closed under the global context |
| `C23_refuted` | C23 | Closed under the global context |
| `C24_list_parsing_partial` | C24 | Closed under the global context |
| `C24_trailing_item` | C24 | Closed under the global context |
| `C24_refuted` | C24 | Closed under the global context |
| `C25_table_parsing` | C25 | Closed under the global context |
| `C26_seconds_partial` | C26 | Closed under the global context |
| `C26_clock_partial` | C26 | Closed under the global context |
| `C26_decimals_partial` | C26 | Closed under the global context |
| `C26_rejects_partial` | C26 | Closed under the global context |
| `C26_refuted` | C26 | Closed under the global context |
| `C27_range` | C27 | Closed under the global context |
| `C27_pixel` | C27 | Closed under the global context |
| `C27_number` | C27 | Closed under the global context |
| `C27_percent` | C27 | Closed under the global context |
| `C28_set` | C28 | Closed under the global context |
| `C28_reset` | C28 | Closed under the global context |
| `C35_start` | C28 | Closed under the global context |
| `C29_moves_towards_target` | C29 | Closed under the global context |
| `C29_others_unchanged` | C29 | Closed under the global context |
| `C29_arrival_partial` | C29 | Closed under the global context |
| `C29_refuted` | C29 | Closed under the global context |
| `C30_choice` | C30 | Closed under the global context |
| `C30_mime` | C30 | Closed under the global context |
| `C30_extensions_partial` | C30 | Closed under the global context |
| `C30_refuted` | C30 | Closed under the global context |
| `C31_parameters` | C31 | Closed under the global context |
| `C32_region_in_parent_partial` | C32 | Closed under the global context |
| `C32_pushed` | C32 | Closed under the global context |
| `C32_refuted` | C32 | Closed under the global context |
| `C33_clone` | C33 | Closed under the global context |
| `C33_same_behaviour` | C33 | Closed under the global context |
| `C33_delete` | C33 | Closed under the global context |
| `C34_parser_refuted` | C34 | Closed under the global context |
| `C34_player_refuted` | C34 | Closed under the global context |
| `C34_player_partial` | C34 | Closed under the global context |
| `C34_parsed_partial` | C34 | Closed under the global context |
| `C36_start_context_partial` | C36 | Closed under the global context |
| `C36_refuted` | C36 | Closed under the global context |
| `C37_natural_end` | C37 | Closed under the global context |
| `C38_start_at_anchor_partial` | C38 | Closed under the global context |
| `C38_past_anchor_refuted` | C38 | Closed under the global context |
| `C38_short_anchor_refuted` | C38 | Closed under the global context |
| `C39_switch_ports_partial` | C39 | Closed under the global context |
| `C39_stop_refuted` | C39 | Closed under the global context |
| `C39_crash_refuted` | C39 | Closed under the global context |
| `C40_built_documents` | C40 | Closed under the global context |
| `C41_parsed_documents_closed` | C41 | Closed under the global context |
| `C41_parsed_documents_playable` | C41 | Closed under the global context |
| `C41_formatter` | C41 | Closed under the global context |
| `C41_documents_closed` | C41 | Closed under the global context |
| `C41_documents_playable` | C41 | Closed under the global context |
| `C41_documents_formatter` | C41 | Closed under the global context |
| `C41_orphan_refuted` | C41 | Closed under the global context |
| `C41_foreign_rule_refuted` | C41 | Closed under the global context |
| `C42_links_compiled` | C42 | Closed under the global context |
| `C43_only_grammatical_documents_accepted` | C43 | Closed under the global context |
| `C44_ids_unique` | C44 | Closed under the global context |
| `C45_objects_mirror_elements` | C45 | Closed under the global context |
| `C46_integer` | C46 | Closed under the global context |
| `C46_integer_failure` | C46 | Closed under the global context |
| `C46_boolean` | C46 | Closed under the global context |
| `C47_references` | C47 | Closed under the global context |
| `C47_wellformed_partial` | C47 | Closed under the global context |
| `C47_playable_partial` | C47 | Closed under the global context |
| `C47_wellformed_refuted` | C47 | Closed under the global context |
| `C47_playable_refuted` | C47 | Closed under the global context |
| `C48_document_depicts_table` | C48 | Closed under the global context |
| `C49_ports_compiled` | C49 | Closed under the global context |
| `C50_rules_compiled` | C50 | Closed under the global context |
| `C51_destroy_safe` | C51 | Closed under the global context |
| `C51_destroy_all_noSwitch` | C51 | Closed under the global context |
| `C51_stop_returns` | C51 | Closed under the global context |
| `C51_switch_leaks_refuted` | C51 | Closed under the global context |

## 5. Findings: where the code departs from what a user would expect

Numbers follow the order of discovery; those marked with a theorem have a
machine-checked witness, the others were met while transcribing the code.

1. PlayerAnimator::schedule bounds/location/size uses list_pos.end() => UB deref (l.64,76,86)
2. UserData::setData(key,null) on missing key: erase(end()) UB
3. Switch PAUSE/RESUME sets _selected=nullptr (Switch.cpp:143-151 region): pause;resume leaves child paused; later STOP doesn't stop child
4. START allowed from PAUSED (only OCCURRING rejected): doStart again => awakeChildren double inc => parent ctx never ends; media player remains paused; time reset; anchors rescheduled
5. Media afterTransition STOP non-lambda unlabelled area: g_assert(isOccurring) -> crash if media paused
6. Media PAUSE evals links on anchors *before* own transition: link may stop media -> g_assert_nonnull(_player) crash; context PAUSE + nested stop of ctx -> state overwritten PAUSED with time NONE -> RESUME + tick => crash
7. Object::sendTick: if a triggered delayed action pauses obj, remaining triggered actions are lost forever; if stops+restarts, stale run
8. addDelayedAction w/ sleeping object (time NONE): NONE+dur wraps to dur-1 (dur>0) or NONE(dur 0: erased untriggered at next tick) => set on sleeping media leaves attribution event OCCURRING, further sets rejected until media stop
9. second `set` on same property in same tick is lost (attribution evt OCCURRING until next tick's delayed STOP): last-write-wins refuted
10. attribution/selection/lookat with PAUSE/RESUME/ABORT => g_assert_not_reached crash (Media); Context attribution likewise; Context SELECTION before returns false; Context LOOKAT crash; Switch ATTR/SEL crash
11. NEGATION predicate eval => crash
12. fromport param of context lambda never reset once "true" => later direct start does not start ports
13. switch started via switchPort (label evt): lambda stays SLEEPING; ctx STOP doesn't stop it nor its selected child
14. switch with lambda start: child natural end doesn't stop the switch if no switchPort maps it => parent ctx never ends
15. delayed link actions lose `duration` (addDelayedAction passes only event/transition/value)
16. ctx links on its own STOP with delay: ctx time NONE => queued in sleeping ctx (time delay-1), fires after ctx restarts; also aliases' ctx not checked for occurring
17. Root tick: awake==1 but settings not occurring => g_assert_not_reached crash (link stopping settings while one media plays)
18. evalAction infinite loop on link cycle (onEnd A->start A, onBegin A->stop A)
19. link exec order: DFS; within link doc order; among several fired links LAST link first; grandparent links before parent links
20. focus: lexicographic min of focusIndex strings ("10"<"2")
21. Formatter opts table lacks webservices: setOptionBool("webservices") -> ERROR abort. start(): if evalAction==0 returns false with _doc non-null -> next start asserts
22. createPlayer: image/svg unreachable (prefix "image" earlier) ; MIME ncl -> abort
23. PROP_BOTTOM percent base is own rect.height, PROP_RIGHT base is screen width
24. Switch::~Switch doesn't delete children (leak)
25. parse_time negative -> UB double->uint64
26. tryinsert list count==0 => no duplicates (ports, aliases)
27. STOP/ABORT transitions never call evalAction (structural recursion) => total correctness provable
28. Media::sendTick EOS: evalAction(lambda STOP) if player eos or (duration valid && _time > dur)
29. Object::toString asserts on LOOKAT events
30. media: pause; start (allowed from PAUSED, player stays PAUSED); pause again => Player::pause assert _state!=PAUSED aborts (Player.cpp:274)
31. PlayerLua::pause/resume always abort (PlayerLua.cpp:109-121)
32. createPlayer: unknown mime with uri (html w/o CEF, css, xml, srt, smil...) => ERROR abort (Player.cpp:611-617)
33. set on bounds/location/size with a live player also changes media's left/top/width/height (Player.cpp:639-698)
34. try_parse_table("") UB front() on empty; parse_time("")=0, "s"=0, "::"=0 accepted
35. setProperty dur>0: player property not updated except through animator
36. text: xstrsplit drops trailing empty item; "" -> []
37. switch in a sleeping context does not start its parent context (sw_before has no startParent): ctx sleeping with awake switch; later ctx/root STOP skips it
38. root onBegin link that starts settings => Formatter.cpp:168 g_assert fails (abort); root START evalAction never returns 0
39. context PAUSE whose children's links stop the context: state overwritten PAUSED after STOP; further STOP decrements parent's awake count twice (runs can go negative)
40. delayed actions of one link with equal delay are queued in REVERSE document order (Document.cpp:275 reverse iteration), so fall due in reverse order: C10 refuted for delayed actions
41. pausing a media selected by a switch through a switchPort while one of its anchors occurs => Player.cpp:274 assert
42. times >4611686018 s inexact; animation may stall
43. "bottom" percentage relative to player's own height
44. top wins over bottom but right wins over left; right="" sets x once
45. PlayerSvg dead code, extension lookup case-sensitive, css/ncl/smil/srt/ssml/xml/class/xlet abort
46. anchor duration truncated to whole seconds; anchors before the seek point are started and never stop
47. ids "__root__"/"__settings__" used by the document => g_assert abort in addChild
48. user id "__unamed-0__" + a link without id => genId g_assert abort
49. missing/invalid font file => pushFont returns false without error => g_assert abort in process()
50. forward `refer` to a settings media => loop over _referMap runs past end (UB) or leaves an orphan media
51. settings media with src "streambuf:x" shorter than 12 chars => std::out_of_range
52. switch bindRule constituent = the switch itself => infinite recursion; rule on a refer media is never selected through the switch's lambda
53. transition attributes built from one shared buffer => garbled values
54. region "right"/"bottom" are moved to the media too and re-applied relative to the screen, overriding the computed left/top for nested regions
55. selection/lookat role bound to a switch then transitioned by an action => Switch::beforeTransition assert
56. region coordinates may overflow int; descriptorParam name="id" renames the descriptor
57. Parser.cpp:3914-3935: a media that refers to a settings media met later leaves a provisional media outside every composition (the loop stops at the first entry of the refer map that is another media), or runs off the end of the map (undefined behaviour) when all entries lead to it. (C41_orphan_refuted)
58. Parser.cpp:1655-1696: the constituent of a bindRule may resolve to the switch itself or, through the refer map, to a media of another composition. (C41_foreign_rule_refuted)
59. The refer attribute of context and switch is accepted by the syntax table and ignored.
60. Parser.cpp:2884-2893: `right` is added to `left` instead of replacing it: a region with left=60%, width=20%, right=20% lies outside its parent; a region with only left keeps the width of its parent and sticks out. (C32_refuted)
61. Document.cpp:380-398: a switchPort repeats actions on ANY event of the component it maps, not on the mapped interface: the end of a timed area of a media selected through the port stops the port and therefore the whole media. (C39_stop_refuted)
62. Same code + Switch.cpp:97: if the switch was started as a whole, the begin of a timed area of the selected component (mapped by a switchPort) starts the port while _selected is set: g_assert abort. (C39_crash_refuted)
63. Parser.cpp:562, 1872-1930: the operator attribute of compoundCondition is accepted and unused: its conditions are always alternatives and its statements are always conjoined, also with operator="or". (C42)
64. Parser.cpp:2690-2710: in a test, $name stands for a parameter of a bind to a test role only; link parameters are not looked up. (C42)
65. ParserLua.cpp:581, 620: the event of a condition or an action is not checked: a link to an area or property that does not exist, or to any key (selection events are never created by this parser), is kept with a null event: such a condition never holds, and the player crashes when such an action is to be taken. (C47_wellformed_refuted, C47_playable_refuted)
66. ParserLua.cpp:174, 291: a component with an unknown tag aborts the process instead of failing with an error; so do unknown transitions and operators; and a port or link that names a missing component dereferences a null pointer (ParserLua.cpp:69-86).
67. ParserLua.cpp:728-739: the operands of `and` and `or` are kept in reverse order (harmless: evaluation has no side effects).
68. ParserLua.cpp:110, 142-172, 365: tags of components are compared ignoring case when dispatching but exactly afterwards: `Media` is dispatched to l_parse_media, which rejects it.
69. Parser.cpp:3599-3626: the interface of a port is resolved when the context is closed, that of a bind when the whole document has been read: if a later media element adds (through refer) an anchor with the name of a property, the port leads to the property and a bind to the same interface designates the anchor. (C49)
70. Switch.cpp:32-37: the destructor of a switch does not stop or delete its children (that of Context does): they leak, and a component started through a switchPort keeps its player after the player has been stopped. (C51_switch_leaks_refuted)
71. Context.cpp:161, Formatter.cpp: if a link stops the body and a later action of the same link starts a component, the start makes the body run again without the settings having been started; the next tick finds a component that is not running where it asserts that it is. The documents of C34_player_partial exclude actions on the body for that reason.

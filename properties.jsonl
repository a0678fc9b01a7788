{"id": "C01", "title": "Event state machine", "statement": "Asking an event for a transition reports success only if the transition was legal in the event's state at the time of the request (start: not occurring; pause: occurring; resume: paused; stop/abort: not sleeping), and on success the event ends in the matching state (start/resume: occurring, pause: paused, stop/abort: sleeping). A request that is illegal in the current state reports failure and changes nothing in the document.", "quantifier": "every document, every event, every transition, every reachable state, every amount of re-entrancy (transitions triggering transitions)", "why_tests_cant": "re-entrant transitions (stop propagation, pause links, parent start) give unboundedly many interleavings of nested transitions", "anchors": ["lib/Event.cpp:Event::transition", "lib/Context.cpp:beforeTransition/afterTransition", "lib/Media.cpp", "lib/Switch.cpp"]}
{"id": "C02", "title": "Media player lifecycle", "statement": "At every moment between API calls a media object has an underlying player if and only if its presentation is not sleeping; hence stopping always releases the player and no player is ever created twice or used after release.", "quantifier": "every document, every history of ticks, keys, link actions, end-of-content notifications", "why_tests_cant": "player creation and release are spread over before/after hooks that links can re-enter in any order", "anchors": ["lib/Media.cpp:beforeTransition", "lib/Media.cpp:afterTransition", "lib/Media.cpp:doStop"]}
{"id": "C03", "title": "Object clock", "statement": "While an object occurs, its presentation time is valid and equals the sum of the tick increments delivered to it since its last start; a sleeping media has no valid time.", "quantifier": "every document and every sequence of ticks and actions", "why_tests_cant": "unbounded tick sequences interleaved with stops, pauses, restarts", "anchors": ["lib/Object.cpp:sendTick", "lib/Object.cpp:doStart", "lib/Object.cpp:doStop"]}
{"id": "C04", "title": "Delayed actions fire once, on time", "statement": "An action scheduled on an object with delay d at object time t is evaluated at the first tick that brings the object time to at least t+d, never earlier, at most once, actions due at the same tick being evaluated in scheduling order.", "quantifier": "every queue of delayed actions and every tick sequence", "why_tests_cant": "tick increments and queue contents are arbitrary; NONE and 64-bit wrap-around are corner cases", "anchors": ["lib/Object.cpp:addDelayedAction", "lib/Object.cpp:sendTick"]}
{"id": "C05", "title": "Stopping a composition stops its content", "statement": "When a context is stopped or aborted, every object nested in it ends up sleeping: no media nested in it keeps a player, no clock and no scheduled action of nested objects survives.", "quantifier": "every document tree, of any depth and width, in any state", "why_tests_cant": "depth and width of the tree are unbounded", "anchors": ["lib/Context.cpp:beforeTransition", "lib/Switch.cpp:beforeTransition", "lib/Object.cpp:doStop"]}
{"id": "C06", "title": "Pause and resume propagate", "statement": "Pausing a context pauses every occurring nested media and resuming it makes them occur again; pausing then resuming a switch restores its selected component.", "quantifier": "every document tree and state", "why_tests_cant": "all combinations of nested states and pause links", "anchors": ["lib/Context.cpp:beforeTransition", "lib/Switch.cpp:beforeTransition", "lib/Media.cpp:beforeTransition"]}
{"id": "C07", "title": "Natural end accounting", "statement": "A context ends by itself exactly when none of its components is active any more: the count of awake children the context keeps equals the number of its children that are not sleeping.", "quantifier": "every history of transitions over a document", "why_tests_cant": "the counter is updated in distant places and drifts only on particular histories", "anchors": ["lib/Context.cpp:sendTick", "lib/Context.cpp:incAwakeChildren", "lib/Object.cpp:doStart", "lib/Object.cpp:doStop"]}
{"id": "C08", "title": "Link soundness", "statement": "An action is carried out only because the caller asked for it, or because a link of a context contains it and one of that link's conditions names an event and transition that has just successfully happened, with its predicate holding and the context's links enabled.", "quantifier": "every document, every initial action, every cascade of links", "why_tests_cant": "cascades are unbounded and history dependent", "anchors": ["lib/Document.cpp:evalAction", "lib/Document.cpp:evalActionInContext"]}
{"id": "C09", "title": "Link completeness", "statement": "Whenever an event of an object completes a transition in an action evaluation and its parent context is occurring with links enabled, every action of every link of that context with a matching condition whose predicate holds is either carried out before the evaluation returns (no delay) or scheduled with its delay.", "quantifier": "every document, every cascade", "why_tests_cant": "unbounded cascades; a lost action is visible only for specific link sets", "anchors": ["lib/Document.cpp:evalAction", "lib/Document.cpp:evalActionInContext"]}
{"id": "C10", "title": "Run-to-completion order", "statement": "The actions of a fired link are carried out in document order, each one including everything it triggers before the next one begins.", "quantifier": "every document, every link, every cascade", "why_tests_cant": "order of nested cascades of any depth", "anchors": ["lib/Document.cpp:evalAction"]}
{"id": "C11", "title": "Action evaluation terminates", "statement": "Evaluating an action, and every start, stop, tick and key of the player, terminates unless zero-delay links, together with the propagation between objects (a switch port repeats what happens to its component; pausing or resuming an object pauses or resumes the anchors in it), form a trigger cycle.", "quantifier": "every document and action", "why_tests_cant": "non-termination cannot be observed by a test", "anchors": ["lib/Document.cpp:evalAction"]}
{"id": "C12", "title": "Predicate evaluation", "statement": "Evaluating a predicate gives the classical truth value of the formula over the current property values, comparisons being lexicographic on strings, with and/or of any arity; it does not change the document.", "quantifier": "every predicate tree and every property assignment", "why_tests_cant": "formula trees are unbounded", "anchors": ["lib/Document.cpp:evalPredicate", "lib/Predicate.cpp"]}
{"id": "C13", "title": "Property references", "statement": "A reference $id.name evaluates to the current value of property name of the object known by that id or alias, the id being everything up to the first dot; anything else is not a reference and is left alone.", "quantifier": "all strings and documents", "why_tests_cant": "all strings", "anchors": ["lib/Document.cpp:evalPropertyRef", "lib/Object.cpp:getProperty"]}
{"id": "C14", "title": "Switch selection", "statement": "Starting a switch starts the component of the first rule, in document order, that is eligible for the started interface and whose predicate holds, and only that one; if there is none the start fails and nothing changes.", "quantifier": "every switch, rule list, property assignment", "why_tests_cant": "rule lists are unbounded", "anchors": ["lib/Switch.cpp:beforeTransition"]}
{"id": "C15", "title": "Attribution", "statement": "A successful set action stores the (dereferenced) value so that the next read of the property returns it, and changes no other property and no other object's properties; successive set actions are all applied.", "quantifier": "every document, property name and value, every sequence of sets", "why_tests_cant": "histories of sets within and across ticks", "anchors": ["lib/Media.cpp:afterTransition", "lib/Context.cpp:afterTransition", "lib/Object.cpp:setProperty"]}
{"id": "C16", "title": "Focus selection", "statement": "When focus is updated without an explicit target, the new focus is the smallest (in dictionary order) focus index among the occurring media; navigation keys move focus only from the focused media.", "quantifier": "every set of media and focus indexes", "why_tests_cant": "any number of media, any strings", "anchors": ["lib/MediaSettings.cpp:updateCurrentFocus", "lib/Media.cpp:sendKey"]}
{"id": "C17", "title": "Key dispatch", "statement": "A key press (release) starts (stops) exactly the selection events of active media that wait for this key, or for no particular key when the media has focus and the key is ENTER; sleeping media ignore keys.", "quantifier": "every document, key and focus state", "why_tests_cant": "all event sets and keys", "anchors": ["lib/Media.cpp:sendKey", "lib/Formatter.cpp:sendKey"]}
{"id": "C18", "title": "Formatter life cycle", "statement": "start succeeds only when stopped, stop reports success exactly when playing, and ticks and keys are refused (return false, no effect) while stopped; after stop the document is gone and the formatter can be started again.", "quantifier": "every sequence of API calls", "why_tests_cant": "call sequences are unbounded", "anchors": ["lib/Formatter.cpp:start", "lib/Formatter.cpp:stop", "lib/Formatter.cpp:sendKey", "lib/Formatter.cpp:sendTick"]}
{"id": "C19", "title": "End of presentation", "statement": "Once the root context sleeps, the next tick or key is refused and puts the formatter in the stopped state; while it does not sleep, ticks reach every occurring object exactly once.", "quantifier": "every document and call sequence", "why_tests_cant": "call sequences are unbounded", "anchors": ["lib/Formatter.cpp:_GINGA_CHECK_EOS", "lib/Formatter.cpp:sendTick"]}
{"id": "C20", "title": "Painting order", "statement": "Redrawing paints every media exactly once, in non-decreasing (zIndex, zOrder) order.", "quantifier": "every set of media with any z values", "why_tests_cant": "any number of objects and any integers", "anchors": ["lib/Formatter.cpp:zcmp", "lib/Formatter.cpp:redraw"]}
{"id": "C21", "title": "Object identity", "statement": "Two objects of a document never share an id; looking up by id or alias returns an object having that id or alias, an id taking precedence over an alias, and fails only if there is none; adding an object whose id is in use is rejected and changes nothing.", "quantifier": "every sequence of additions and lookups", "why_tests_cant": "unbounded histories", "anchors": ["lib/Document.cpp:addObject", "lib/Document.cpp:getObjectByIdOrAlias", "lib/Composition.cpp"]}
{"id": "C22", "title": "Event identity", "statement": "An object never holds two events with the same type and id, always holds its whole-content event, and adding an existing event is a no-op that keeps its state.", "quantifier": "every sequence of additions", "why_tests_cant": "unbounded histories", "anchors": ["lib/Object.cpp:addAttributionEvent", "lib/Object.cpp:addPresentationEvent", "lib/Object.cpp:getEvent"]}
{"id": "C23", "title": "User data ownership", "statement": "Every value attached with a clean-up function is cleaned exactly once: when it is overwritten or removed, or else when the container is destroyed; get returns the last value set.", "quantifier": "every history of set/get/destroy", "why_tests_cant": "unbounded histories", "anchors": ["lib/aux-ginga.cpp:UserData"]}
{"id": "C24", "title": "List parsing", "statement": "Parsing a separator-joined list gives back the stripped items and succeeds exactly when their number lies within the bounds.", "quantifier": "every string, separator and bounds", "why_tests_cant": "all strings", "anchors": ["lib/aux-ginga.cpp:xstrsplit", "lib/aux-ginga.cpp:try_parse_list", "lib/aux-ginga.cpp:xstrstrip"]}
{"id": "C25", "title": "Table parsing", "statement": "Parsing the printed form {k='v',...} of a table returns the table, for keys and values free of separators and quotes.", "quantifier": "every such table", "why_tests_cant": "all tables", "anchors": ["lib/aux-ginga.cpp:try_parse_table"]}
{"id": "C26", "title": "Time parsing", "statement": "'Ns' and 'HH:MM:SS' parse to exactly that many nanoseconds; anything else that is not a number is rejected.", "quantifier": "all strings in the two formats", "why_tests_cant": "all numbers", "anchors": ["lib/aux-ginga.cpp:try_parse_time"]}
{"id": "C27", "title": "Percent and pixel parsing", "statement": "Parsed sizes and pixels are always inside the requested range, whatever the string.", "quantifier": "all strings, bases and ranges", "why_tests_cant": "all strings", "anchors": ["lib/aux-ginga.cpp:parse_percent", "lib/aux-ginga.cpp:parse_pixel"]}
{"id": "C28", "title": "Player properties", "statement": "Setting a player property and reading it back returns the value set, setting it to the empty string applies the default, aliases apply to the aliased property, stopping a player restores all defaults.", "quantifier": "all property names, values and histories", "why_tests_cant": "all histories of sets", "anchors": ["lib/Player.cpp:setProperty", "lib/Player.cpp:resetProperties", "lib/Player.cpp:getPlayerProperty"]}
{"id": "C29", "title": "Animation", "statement": "An animated value moves monotonically from its initial value to its target, never overshoots it, and reaches it exactly at the latest when the duration has elapsed.", "quantifier": "all start and target values, durations and redraw schedules", "why_tests_cant": "all schedules", "anchors": ["lib/PlayerAnimator.cpp:AnimInfo"]}
{"id": "C30", "title": "Choice of player", "statement": "The player created for a media is determined by its mime type (explicit, or by the extension of its URI), every known extension having the player of its mime class.", "quantifier": "all URIs and mime strings", "why_tests_cant": "all strings", "anchors": ["lib/Player.cpp:createPlayer", "lib/Player.cpp:getMimeForURI"]}
{"id": "C31", "title": "Parameter resolution", "statement": "A parameter reference in a connector resolves to the bind parameter if there is one, else to the link parameter, a further reference being resolved to the bound property if there is one; an unknown parameter is empty and a non reference is left alone.", "quantifier": "all strings and tables", "why_tests_cant": "all tables", "anchors": ["lib/Parser.cpp:resolveParameter"]}
{"id": "C32", "title": "Region nesting", "statement": "Nested regions resolve to absolute screen rectangles contained in their parents' extent when all coordinates are percentages between 0 and 100.", "quantifier": "all region trees and screen sizes", "why_tests_cant": "all trees", "anchors": ["lib/Parser.cpp:pushRegion"]}
{"id": "C33", "title": "Predicate copies", "statement": "A cloned predicate is equal to and independent from the original, and evaluates and prints identically.", "quantifier": "all predicates", "why_tests_cant": "all trees", "anchors": ["lib/Predicate.cpp:clone", "lib/Predicate.cpp:toString"]}
{"id": "C34", "title": "No abort", "statement": "No document accepted by the parser and no sequence of API calls makes the library abort the process.", "quantifier": "all documents and call sequences", "why_tests_cant": "all histories", "anchors": ["lib/*.cpp:g_assert*"]}
{"id": "C35", "title": "Starting a media", "statement": "When a sleeping media is started, its content occurs, as do the sleeping contexts around it, and no other event moves; its clock is zero; each of its timed anchors is scheduled to begin and end at its own instants; exactly one player is created, of a class that suits the mime type, it is given every property of the media and presents them all (defaults, aliases and composites resolved); and the focus is recomputed if the media can have it.", "quantifier": "all documents, states and media", "why_tests_cant": "all property tables, anchors and states", "anchors": ["lib/Media.cpp:beforeTransition", "lib/Media.cpp:afterTransition", "lib/Player.cpp:setProperty"]}
{"id": "C36", "title": "Starting a context", "statement": "When a sleeping context is started, it occurs and its clock is zero; every sleeping context around it is awoken too, without its ports; the start of each of its ports on a presentation is scheduled without delay, in document order; nothing else changes, except that the focus is recomputed if it can have it.", "quantifier": "all documents, states and contexts", "why_tests_cant": "nesting and port lists are unbounded, and the effect depends on the history of earlier starts", "anchors": ["lib/Context.cpp:beforeTransition", "lib/Context.cpp:afterTransition", "lib/Object.cpp:doStart"]}
{"id": "C37", "title": "Natural end of a media", "statement": "A tick makes a media stop exactly when its content is over (end of stream, or clock past its definite duration): all its events then sleep, its player, clock and schedule are released, and the links on its end are followed; otherwise a tick of a media does no more than advance clocks and carry out what is due.", "quantifier": "all documents, reachable states and tick durations", "why_tests_cant": "durations, end-of-stream notifications and ticks interleave without bound", "anchors": ["lib/Media.cpp:sendTick", "lib/Player.cpp:getEOS", "lib/Media.cpp:doStop"]}
{"id": "C38", "title": "Starting at an anchor", "statement": "Starting an anchor of a media that is asleep starts the media and moves it to where the anchor begins: that anchor and the anchors that hold at that instant occur, what remains scheduled lies between the begin and the end of the anchor at the time that is left, the player is told where to start and how long to play, and no event of the media keeps occurring for ever because its end was skipped.", "quantifier": "all documents, media, anchors and states in which the media sleeps", "why_tests_cant": "the position, the other anchors and the state of the surroundings range over unbounded sets", "anchors": ["lib/Media.cpp:beforeTransition", "lib/Object.cpp:addDelayedAction", "lib/Player.cpp:start"]}
{"id": "C39", "title": "Switch ports repeat their components", "statement": "A successful action on a component of a switch is repeated on every port of the switch that is mapped to it, once for each mapping, in document order and with the same transition and parameters, and on no other port; an action elsewhere is repeated nowhere; and a port repeats only what happens to the interface it is mapped to.", "quantifier": "all documents, states, actions and their whole cascades", "why_tests_cant": "the nesting of switches, ports and cascades is unbounded", "anchors": ["lib/Document.cpp:evalAction", "lib/Switch.cpp:beforeTransition", "lib/Switch.cpp:addSwitchPort"]}
{"id": "C40", "title": "Documents built are playable", "statement": "Whatever sequence of construction operations built a document, if its ports, links, rules, switch ports and aliases only refer to its own objects and events (and rules to components of their switch), it has the shape the engine relies on: a tree of objects, each with its events and whole-content event, one settings object below the root, and everything asleep.", "quantifier": "all sequences of construction operations and memory allocators", "why_tests_cant": "unbounded histories; iteration orders depend on addresses", "anchors": ["lib/Document.cpp:addObject", "lib/Composition.cpp:addChild", "lib/Object.cpp:addPresentationEvent", "lib/Switch.cpp:addSwitchPort"]}
{"id": "C41", "title": "Parsed documents are playable", "statement": "If the parser accepts a document in which no settings element is named like the root or referred to by an earlier element, and the bindRules and defaultComponents of its switches name components written in them, then every object it made is in the document, every port, link, switch port and alias leads to objects and events of the document, and the result has the shape the engine relies on.", "quantifier": "all XML trees, import contents and parser settings", "why_tests_cant": "the parser has many resolution passes over unbounded trees; one dangling reference is enough to break the player later", "anchors": ["lib/Parser.cpp:processNode", "lib/Parser.cpp:pushMedia", "lib/Parser.cpp:popNcl", "lib/Parser.cpp:resolveComponent", "lib/Parser.cpp:resolveInterface"]}
{"id": "C42", "title": "Links are compiled as written", "statement": "When the parser accepts a document (in which no settings element is named like the root or referred to before it is declared), every link element becomes one link of the context that encloses it, in document order, and there are no other links. If its connector is one of the document, the link has one condition (action) for each bind to a condition (action) role, in the order of the binds, and every role is bound (those of tests too); each condition carries as its predicate the conjunction of the statements of the compound conditions around its role, a reference to a test role standing for the property bound to it and any other reference in a test for the parameter of the binds to tests; each is on the event that the bind designates (the component, its anchor or property, the switchPort, or what the named port of a context leads to), has the event type and transition the role stands for, and the key, value, duration and delay of the role, with references replaced by the parameters of the bind, else of the link, and references to roles the connector does not have by the interface bound to them.", "quantifier": "all XML trees, import contents and parser settings", "why_tests_cant": "connectors, binds, ports and parameters combine without bound and refer to each other forwards and backwards; a wrong precedence or a swapped role shows only on particular combinations", "anchors": ["lib/Parser.cpp:solveLink", "lib/Parser.cpp:resolveInterface", "lib/Parser.cpp:resolveParameter", "lib/Parser.cpp:pushSimpleCondition", "lib/Parser.cpp:pushBind"]}
{"id": "C43", "title": "Only grammatical documents are accepted", "statement": "A document the parser accepts has ncl as root; each of its elements is known and is a child the language allows under its parent, has all its mandatory attributes and no unknown one, and its ids and references are well-formed names.", "quantifier": "all XML trees, import contents and parser settings", "why_tests_cant": "the trees and attribute lists are unbounded; a single unchecked combination would be accepted silently", "anchors": ["lib/ParserSyntaxTable.h", "lib/Parser.cpp:checkNode", "lib/Parser.cpp:processNode"]}
{"id": "C44", "title": "Ids are unique in accepted documents", "statement": "In a document the parser accepts no two elements have the same id.", "quantifier": "all XML trees, import contents and parser settings", "why_tests_cant": "unbounded trees; ids of imported documents are rewritten and share the table", "anchors": ["lib/Parser.cpp:checkNode", "lib/Parser.cpp:ParserState::process"]}
{"id": "C45", "title": "The objects of a document mirror its elements", "statement": "When the parser accepts a document (in which no settings element is named like the root or referred to before it is declared), every body, context, switch and media element has an object of its kind with its id; every component element is a child of the object of the element that encloses it, and has it as parent; references and settings elements are names of the object they stand for, in the enclosing composition; every area is an anchor of its media with the begin and end times or the label written in the document; every property is an attribution event of its object.", "quantifier": "all XML trees, import contents and parser settings", "why_tests_cant": "trees are unbounded and references may point forwards or backwards; a lost child or a swapped time shows only on the documents that have it", "anchors": ["lib/Parser.cpp:pushContext", "lib/Parser.cpp:pushMedia", "lib/Parser.cpp:pushArea", "lib/Parser.cpp:pushProperty", "lib/Composition.cpp:addChild"]}
{"id": "C46", "title": "Integers and booleans are read as written", "statement": "An integer property value (zIndex, zOrder, focusBorderWidth) is the integer written at the start of the string, after white space and with its sign, saturated to the range of int; it fails exactly when there is no integer there. A boolean value is true or false exactly when the string is that word, in any letter case.", "quantifier": "all strings", "why_tests_cant": "strings are unbounded; signs, saturation and trailing text combine", "anchors": ["lib/aux-ginga.cpp:xstrtoint", "lib/aux-ginga.cpp:try_parse_bool", "lib/Player.cpp:doSetProperty"]}
{"id": "C47", "title": "Documents made from Lua tables are well formed", "statement": "When the table returned by a Lua script is accepted, the document is one that the construction API could have built, every reference in it (events of ports and links, components of rules) is to something of the document, and so playing it enjoys the guarantees proved for well-formed documents.", "quantifier": "all Lua values a script may return, all file name environments and memory layouts", "why_tests_cant": "tables are unbounded trees with any keys and values; a dangling reference shows only when a link of that table is triggered", "anchors": ["lib/ParserLua.cpp:process", "lib/ParserLua.cpp:l_parse_context", "lib/ParserLua.cpp:getEventStringAsEvent"]}
{"id": "C48", "title": "The document is what the Lua table describes", "statement": "When the table returned by a Lua script is accepted, the document is exactly what the table describes: every component table is an object of its kind in its place in the tree, with the id, the properties (src as uri, relative to the script; transitions as text) and the areas (with their times) written; every port of a context is the event named; every link has the conditions (transition, event, predicate) and the actions (transition, event, value, duration, delay) written, in the order written; every rule of a switch names its component and its predicate; there is nothing else.", "quantifier": "all Lua values a script may return, all file name environments and memory layouts", "why_tests_cant": "tables are unbounded trees; a swapped field or a lost entry shows only on the tables that have it", "anchors": ["lib/ParserLua.cpp:l_parse_context", "lib/ParserLua.cpp:l_parse_switch", "lib/ParserLua.cpp:l_parse_media", "lib/ParserLua.cpp:l_parse_link", "lib/ParserLua.cpp:l_parse_port", "lib/ParserLua.cpp:l_parse_predicate"]}
{"id": "C49", "title": "Ports are compiled as written", "statement": "When the parser accepts a document (in which no settings element is named like the root or referred to before it is declared), the ports of every context (and of the body) are the events that the port elements written in it lead to, in the order written, an event not being listed twice; every switch has, for each switchPort written in it, an entry under its id with the events its mappings lead to, in order; and no other object has ports or switchPorts. What a port or mapping leads to is the component it names as a whole, or the interface of it that it names (an anchor or property of a media, a property of a context, a switchPort of a switch), or what the port of that name of the component leads to.", "quantifier": "all XML trees, import contents and parser settings", "why_tests_cant": "ports lead through other ports of nested contexts to any depth, and components, interfaces and ids combine without bound; a port attached to the wrong context, dropped or listed under a wrong id shows only on particular nestings", "anchors": ["lib/Parser.cpp:pushPort", "lib/Parser.cpp:popContext", "lib/Parser.cpp:popSwitch", "lib/Parser.cpp:resolveInterface", "lib/Switch.cpp:addSwitchPort"]}
{"id": "C50", "title": "The rules of switches are compiled as written", "statement": "When the parser accepts a document (in which no settings element is named like the root or referred to before it is declared), every switch has, in this order, one rule for each bindRule written in it, in the order written, for the component of the document that it names, and then one rule for each defaultComponent, which always holds; no other object has rules. The predicate of a bindRule is what the rule element it names means: a rule compares the named property of the settings with the value by the comparator written; a composite rule combines the rules written in it, in order, by its operator; an empty composite rule never holds.", "quantifier": "all XML trees, import contents and parser settings", "why_tests_cant": "rules nest to any depth, may be declared anywhere in the document and bound any number of times; a swapped operand or a default that precedes a rule shows only in the choice made by the documents that have it", "anchors": ["lib/Parser.cpp:pushRule", "lib/Parser.cpp:pushBindRule", "lib/Parser.cpp:popSwitch", "lib/Parser.cpp:popNcl"]}
{"id": "C51", "title": "Stopping the player destroys the document safely", "statement": "When the player is stopped, from whatever state the presentation is in, the destruction of the document returns: no object or event is used after it has been deleted, none is deleted twice, every media object is closed (has no player) when it is deleted, and exactly the objects in the care of the root (the root, and the children of contexts in its care) and their events are deleted; in a document without switches this is everything in it.", "quantifier": "all well-formed documents, all reachable states of the presentation, all uses of the player's interface before the stop", "why_tests_cant": "stopping a context while it is being destroyed looks at events, children and the parent; which of them are gone depends on the shape of the tree and on what is playing", "anchors": ["lib/Document.cpp:~Document", "lib/Context.cpp:~Context", "lib/Switch.cpp:~Switch", "lib/Media.cpp:~Media", "lib/Object.cpp:~Object", "lib/Formatter.cpp:Formatter::stop"]}

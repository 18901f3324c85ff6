# Formal model of motis-project/soro-s in Rocq (Coq 8.16.1)

## 1. Approach

* `/repo` is read as text only. Each C++ function that matters to a property is
  re-expressed as a small total Gallina function (`rocq/theories/*Model.v`) with
  a comment citing file and lines. Nothing about the real code is an axiom.
* Outcomes other than a normal return are explicit. `res A := Ok a | Throw | UB | Fuel`:
  `Throw` is a C++ exception (`utl::verify`, `std::runtime_error`, a `sassert`
  failing in a debug build), `UB` is undefined behaviour or an out-of-bounds
  access, and `Fuel` marks a loop bound that was too small (always excluded by the theorem).
* Wrap-around is explicit (`mod 2^32`, `mod 2^16`) wherever the property depends on it
  (exclusion sets, bitfield iterators, km/h arithmetic).
* For every module `X`: `XModel.v` (model), `XProofs.v` (lemmas), and the
  property theorems in `PropsX.v`, which contain nothing but a small
  specification vocabulary, the theorems (`exact lemma`), `Print Assumptions`
  and the non-vacuity `Example`s.
* A property that is false of the code is recorded as `..._refuted` (a theorem
  exhibiting a witness) together with the strongest true part (`..._partial`).

## 2. Trusted base

* Coq 8.16.1 kernel (and `vm_compute`), what `Print Assumptions` prints under
  each theorem (recorded in section 5).
* Faithfulness of the reading of `/repo` (the code is not executed).
* Behaviour of the libraries the code calls (std, cista, utl, range-v3, pugixml);
  each assumption is written at the definition that makes it.

## 3. Plan per property

(what is modelled; how it is proved)

| id | model | proof |
|----|-------|-------|
| C01-C07 | `exclusion_set` as a record of five uint32 fields and a block bit vector (value `N` + size), block loops as recursion over block indices, uint32 wrap-around | canonical-form invariant; `N.testbit` extensionality; induction over operation lists |
| C08-C13 | `bitfield` as first/last day (`Z`) and a 512-bit `N`; iterator as index automaton with uint16 index | `N.testbit`; well-founded iteration; C13 is expected to be refuted (result of `>>` discarded) |
| C14-C15 | train as (bitfield, first departure, last arrival); departures as the filter over the bitfield window | soundness proved; completeness expected refuted for overnight trips, partial for the rest |
| C16 | `has_cycle` with fuel = node count + 1, arrays as functions/sets | colour invariants |
| C17-C18 | work-list loop, container discipline (queue/stack) as a parameter | reachability invariant; fuel bound from `seen`; C18 expected refuted |
| C19-C20 | `path_exists`, `get_reachable_nodes`, `get_cycle` | on top of C17; BFS level invariant for minimality |
| C21 | `remove_transitive_edges` | DAG: well-founded induction; cyclic graphs expected refuted |
| C22-C25 | construction of the ordering graph from trips and exclusion sets | sorted adjacent edges give paths; topological order by time; `next` expected refuted |
| C26-C28 | list algorithms | induction |
| C29-C32 | sentinel optional, parse_int, split, type names | induction / finite sweep; hash collisions give a refutation if a collision can be exhibited |
| C33-C35 | exclusion tables as lists of lists, thread batches, interleavings as permutations of atomic appends | inverse-map lemmas |
| C36-C39 | routes as lists with index automata | induction; C36 expected refuted because an extra speed limit is never reset between yields |
| C40-C43 | KSS timetable parser functions over abstract XML attributes | induction; out-of-bounds read in parse_duration expected refuted |
| C44-C45 | running time phases over rationals (floating point idealised) | induction over phases; non-monotone braking expected refuted |
| C46 | `dpd::insert` on one and two level distributions, `subsum`, `sum` | refuted for decreasing heads, partial otherwise; the sums: each insertion adds its probability, whatever the order |
| C47-C51 | line segments, bounding box, element comparator, polynomial/piecewise, unit fractions | induction; comparator expected refuted (fuzzy equality) |
| C52-C53 | `trip_nodes`, the element type classes | case analysis |
| C54 | `get_interlocking_routes`: the search over station routes with fuel | the set of found routes characterised declaratively (`signal_to_signal`), termination by a rank; refuted for signal-free circles |
| C55-C56 | `get_exclusion_elements`, `read_cliques` | induction over the route / the file; one refuted case |
| C57 | the KSS train parser as a whole | inversion of an accepted train; conversely which trains are accepted, and the first reason against every other one |
| C58-C60 | `get_intervals`, the runtime loop, the yielded timestamps | invariants of the interval list and the phases; limits from the last signal on refuted |
| C61 | iteration of distributions and the delay distributions | induction; refutations by computation |
| C62 | `parse_line`, `parse_lines` | induction over the files |
| C63-C64 | the ISS plan import: sections, devices, elements, `connect_*`, borders | a layout invariant kept while sections are read one after the other (`InfraLay`-`InfraNet`), then the drive along a section |
| C65-C69 | station routes: `get_path`, cached paths, contents, station route graph, reverse edges | the search equals the drive described by the course; positions as sorted marks |
| C70-C71 | the same, against the plan as drawn, for ways from and to anything | composition of C63 and C65; what cannot be an end of a route is excluded by the import |
| C72 | `train::iterate`, `train::trip...`, sequence points on the way, which nodes are passed over | refinement to a list of cells |
| C73 | `get_interlocking` and `parse_iss` as a whole | composition of C38, C54, C62, C63, C65-C68; `RouteWay.v` shows that the generated routes are exactly the signal-free ways |
| C74 | `parse_fp` over lists of characters, exact rationals | inversion of the scanner; replacing commas as a map on texts |
| C75 | core data as lists of sheets, import, maps, lookup | invariants of the two loops (first usable variant wins, keys distinct), unit conversion as a polynomial identity |
| C76 | `parse_characteristic` on imported rolling stock | C75 for each unit, sums by induction on the units |
| C77 | `get_layout` on the drawn nodes and sections, exact rationals | invariant of the three loops (places written once, corners subtracted once per station) |
| C78 | `parse_station_coords` on rows of texts | invariant of the loop over the rows; C74 for the numbers |
| C79 | breadth first search and weighted mean of `layout_to_gps.cc`, addresses as a parameter | exactness of the search, the mean as a sum over the surroundings, independent of their order |
| C80 | `gps`, `cartesian` over the real numbers, own `atan2` | the haversine as the scalar product of unit vectors, triangle inequality by Cauchy-Schwarz |
| C81 | `gps::move`, `gps::bearing`, `rotate_point_around_by` | the frame of up, north and east; polynomial identities in sines and cosines |
| C82 | `layout_to_gps` on layouts and stations | C81 per element, invariant of the loop over the degrees |
| C83 | `export_to_osm` on infrastructures, per number of threads | splitting a list into parts, uniqueness of the sorted list |
| C84 | same | invariant of the loop over the neighbours: the map of ways holds the connections made |
| C85 | `compute_interpolation` on the reals | weights of the four points; angles seen from the middle of the rectangle |
| C86-C88 | the files of the web server and its start as a program with a step budget (crash points), reading and drawing as parameters | a small program logic (`triple`), one invariant per phase, induction over histories |
| C89-C91 | the search index and the request handlers of the web server over infrastructures reduced to what is shown of them; the guesser is a parameter | soundness and completeness of the index by cases on the things of an infrastructure, uniqueness of written numbers |
| C92 | the ordering graph request: its parameters, the departures of the trains in the interval, the graph (model of C19-C25) and the answer | the index of trips as consecutive ranges of nodes; what the graph theorems say about nodes is carried over to the nodes shown; parsing of numbers and lists as equivalences |
| C93 | generators that yield generators: promises with root, leaf and parent pointers, resuming, pulling, exceptions, destruction, over a heap in which a destroyed promise cannot be used | the body of a coroutine by induction on its program (heap and stack of suspended coroutines afterwards), pulling by induction on that stack, loops by induction on the values read |
| C94 | a function mapped over a generator and collected | as C93, loop by induction on the values read |
| C95 | `get_infra_stats` over the same plans as C63, compared with the network `import` builds | bijections between leading parts of devices, track nodes or empty ways of the plan and the elements of a type, from the invariant of C63; the parts of a device counted by its other parts |
| C96 | `write_out` of the export tool over the graph `get_exclusion_graph` computes (C35); the file as a text | the loop stops at the own number, which the sorted set holds unless the route ends where it starts; lines and numbers can be separated again because digits, blanks and line breaks differ |
| C97 | the map generator (Go): stable sorting and removal of duplicates of OSM data, `Atoi` with its errors dropped | insertion sort keeps the entries of one key in order; with ascending input the search only ever meets the last element |
| C98 | inserting a node next to a reference node in all ways | split of the list at the first occurrence |
| C99 | the loop that removes stops from the list it walks, as overwriting of one array; the output of the generator | invariant: done part, part to come, stale copies of the last node; the exact condition of the crash |
| C100 | the curated stations, the numbers of lines, the combination of line files | induction on the lists, a Go map as list of keys |
| C101 | adding the mapped data to additional OSM data, for every order of the map of nodes | membership; witnesses for the missing update of the ways and the check of the file name |
| C102 | following a track over ways that meet in any orientation; distances exact, fuel per node | the walk as an inductive trail, invariant with the node behind; ring of nodes at one place as witness |
| C103 | both searches from a node, the node found from two | trails joined to a straight line; case analysis of the four pairs, witness for the wrong one |
| C104 | sorting the anchors and replacing unusable ones, for every order of the map | invariant over the anchors tried: all but two of them are unusable |
| C105 | the parser of the infrastructure data: one file per line, with a position per line | invariant over stations and sections: the map is a function of the keys |
| C106 | the second pass of `MapDB` over all kinds of elements, one search and insertion each, for every order of the maps | the requests are matched with an independent list of jobs; induction over the attempts |
| C107 | the same, as an invariant of the network C102-C104 start from | one insertion preserves each of the four conditions; witness with two ways that join |
| C108 | the first pass: main signals, conflicts that undo anchors, for every order of the map of anchors | invariants over the signals: anchors are new nodes with four tags, every one stands for an identified signal |
| C109 | the first pass: switches and their other ends | induction over the switches; existing nodes keep their positions |
| C110 | `fold_max` over the model of distributions (C46) | sums over the buckets; the product of two partial sums is the partial sum of the maxima |
| C111 | construction of the graph, paths, the work list; assertions on or off | induction over the trains; the general theorem about breadth first search (C19) |
| C112 | integral types with the usual arithmetic conversions, `narrow` | case analysis over signs and sizes; powers of two are monotone |
| C113 | file system as a function, index as a list of names | induction over the names; the beginnings exclude each other |
| C114 | the checks of `main` in their order | case analysis |
| C115 | no new code: the models of C39, C72 and C73 put together | consecutive routes share a node (C39), ids of nodes are unique, routes are unbroken (C73); the iteration shows a part of the journey (C72) |
| C116 | the sidebar store of the web client as a machine: user actions and answers, in any order, are events | invariant: either the value belongs to the choice or the request that brings it is the youngest one pending |
| C117 | the same | counting over the history: drawn = answers since the last removal |
| C118 | the same, with the search field; strings as in the browser | as C116; positions of the first occurrence |
| C119 | field, store and request of the client as functions on texts, the regular expression as an automaton; the parser of the server (C92) unchanged | induction over the texts; words between commas; decimal numerals |
| C120 | the component as a machine like C116; the graph library by its contract | invariant over the histories without overlapping requests; witnesses with two requests |
| C121 | the store of settings as a machine: pages, local storage, scheme of the system | invariant of every open page; the storage tells the last choices of consecutive pages; witnesses with two pages |
| C122 | tabs with a reference to their array of boxes, the array of the module, the local storage, and the map as visibility and filter of every layer | invariant: only one tab refers to the array of the module; induction over histories; witnesses for shared arrays and changes of theme |
| C123 | the adapter with its three variables, the layout as list of its tabs, the stored layout | invariant: indices given back and in use are disjoint; the search for a free index ends by the pigeonhole principle |
| C124 | the patterns of the routes as regular expressions with backtracking, the table of routes, the addresses of the client | meaning of a pattern as relation, sound and complete; addresses as parts between slashes are unambiguous, so at most one pattern fits; witnesses |
| C125 | the page as a machine: selected overlay, pane instance with its switches, highlighted routes, pending requests | invariants by induction over histories: the last request of a pane is for the station clicked last; a switch is on iff its route is highlighted or coming; witnesses |
| C126 | the table of routes with the functions and the parameters each one takes, over the models of C89-C92 and C124 | composition: the address of a question (C119, C124) and the answer of the function (C89-C92); every other address by cases on what it asks for |
| C127 | the menu as a machine on top of the store of C116: overlay selected, boxes of the mounted menu, watchers after every handler | invariant by induction over histories since the menu was opened |
| C128 | overlay, field of the mounted search, results with the identity of their boxes, searches under way, the map's place | invariants by induction over histories: results and target belong to answers that have come |
| C129 | the nodes of cereal's JSON archive, json_archive, the answers about boxes, elements and search results, and the client's reading of a text | induction over nested values: the archive writes the balanced text of a value, reading it gives the value; exactly the values with NaN are rejected |
| C130 | positions in a list of identifiers, the container with null pointers, moves, loops | induction over the list and over the moves: a loop is the list of the things named, or ends at the first bad identifier |
| C131 | the answers of the server functions and the types declared by the client | a type judgement over JSON values; with C129 each answer is read as its members, which have the types or lack a name |
| C132 | workers with the place of each one in the counting of an error, the lock, the map of counts | invariant over all interleavings: counts and open trains add up to the rejected trains, the lock has one holder; a measure bounds every schedule |

Properties that cannot be expressed in a model: none so far (wall-clock time,
memory use and file-system behaviour are outside and not claimed).

(The rows above are the plan; what was reached is in `MANIFEST.json`, and what is
missing from a `_partial` theorem is said in its note and in the comment at the theorem.)

## 4. Findings

Statements that are false of the code as modelled; the theorem with the witness is
named where there is one. "Debug" and "release" refer to `sassert`, which throws in a
debug build and does nothing in a release build; `utl::verify` always throws. The model
takes the debug build, a release build goes on with the violated assumption.

Containers and text
* `exclusion_set |=` onto an empty set copies the other set's id; ids beyond the set's
  range are not checked. `id_iterator` + / - lose the container.
* `bitfield`: see C13. `departures` throws when the interval starts after it ends.
* `optional` cannot hold its sentinel; `split` with an empty delimiter; `get_type`: two names
  may have the same hash; `parse_int` in a release build.
* `slice_clasp` with an inverted range is undefined.
* Fractions with the same unit above and below are a different type than the reduced
  one (`C51_unreduced_refuted`).

Exclusion
* With zero hardware threads the index stays empty. A route inside one section between two
  ends that are no track elements is always taken as rising
  (`C55_falling_between_ends_refuted`).
* The export tool stops a line at the route's own number. A route that ends where it
  starts is not in its own set, so its conflicts are written twice (`C96_once_refuted`).

Station routes and interlocking
* Iterating a part of a station route shows stale extra speed limits, and an extra
  limit at an omitted node hides the later ones (`C36_*_refuted`).
* An interlocking route that returns to its first station route cannot be iterated,
  and `from`/`from_to` skip the lap silently (`C37_*`, `C72_laps_refuted`).
* Station routes without signals that form a circle make the search endless
  (`C54_cycle_refuted`). Without any route, the statistics divide by zero
  (`C73_no_routes_refuted`). At the edge of the network a lone signal is a route
  (`C73_single_node_refuted`).
* `halting_at` lists a route twice if both halts coincide (`C38_halting_at_repetition_refuted`).
* Successors are matched by the border element, not by direction
  (`C73_foreign_end_refuted`).
* A course shorter than the number of switches is read behind its end
  (`C65_short_course_refuted`); a route in a circle is searched for without end
  (`C65_endless_search_refuted`). An unknown attribute writes out of bounds. Ids of rail
  plan nodes are cut to 32 bits in one comparator.

Plan import
* Kilometrage jumps are connected correctly only in one orientation
  (`C63_jump_refuted`), switches between equal lines send trains back
  (`C63_switch_refuted`), two high borders catch trains
  (`C63_high_borders_refuted`), a border without counterpart is a null
  dereference (`C63_lone_border_refuted`).
* Elements closer than a centimetre are ordered in circles (`C49_comparator_refuted`).
* Lines: a kilometrage in a gap throws, segments are not sorted, a second line of the same
  number is dropped (`C47_*_refuted`, `C62_second_dropped_refuted`). The bounding box of
  no or of invalid positions is wrong (`C48_*_refuted`).
* The literals of RISING/FALLING are swapped for runtime checkpoints and point speeds,
  those of SIGNAL/HERE/LAST_SIGNAL in `parse_speed_limit_poa`.
* The statistics of a plan count a section for every two borders, but the import only
  builds one for two borders that match: every two borders to stations outside the data
  make the number one too large (`C95_sections_excess`, `C95_sections_refuted`).

Timetable
* An excluded day may be added again by a later mask, a truncated duration is read
  behind its end, an empty calendar throws, an unknown duration unit is ignored;
  a missing runtime checkpoint throws instead of being reported
  (`C57_missing_checkpoint_refuted`).
* `transform_to_interlocking`: takes a wrong branch, stops early when ends align,
  endless in a ring, reads out of bounds for a sequence inside one route, counts a
  point at a shared signal twice; as the final check only compares numbers, a halt can be
  lost while another one is handed out twice (`C39_*_refuted`).  What a path that is found
  does guarantee at its end is `C39_to_the_end`: its last route ends behind the last point
  of the sequence, or has more station routes than the sequence has left.  A train over the
  station routes of one route is found (`C39_direct_partial`).
* Two consecutive sequence points at one node hide all later ones
  (`C72_same_node_refuted`).

Map
* The first track element of a section always lies on the start of the section and the
  last gap is larger (`C77_apart_refuted`). An element without coordinates is placed at
  the largest double (`C77_every_element_refuted`).
* A missing coordinate file is only warned about, but the layout throws later
  (`C78_missing_file_refuted`).
* The loop that interpolates places never makes progress after its first round, since it
  always starts from the original places. Left of a station at the edge of the map
  the place is invalid (`C79_everywhere_refuted`). All stations that see one and the same
  station at the same depth get the same place.
* PI is 3.1415. Distances are up to 2 km off, 180 degrees east and west are more than a
  kilometre apart (`C80_true_distance_refuted`), the lower half of every station is
  turned 0.011 degrees less than the upper half (`C82_rigid_refuted`). Places
  beyond the poles are valid but cannot be moved (`C81_distance_refuted`). All stations
  are turned at once in each of the three passes, so two neighbours may
  keep turning away from each other.
* The auxiliary points of the exported curves compare degrees with a tolerance of 0.01
  (about 1 km), so nearly every track is taken to run north or south
  (`C85_straight_refuted`); the distance they use is converted to degrees although
  `acos` already returns radians.
* The export divides by the number of threads the machine reports, which may be zero, and
  reads the last node of an infrastructure without stations (`C83_always_refuted`).

Web server
* A timetable kept by an earlier run is handed to the KSS parser, which takes directories
  only: restarted without any change, the server has no timetables
  (`C87_restart_refuted`).
* Whether a kept infrastructure is outdated is decided by the time of its source
  directory, which does not change when a file in it is edited
  (`C86_in_place_refuted`).
* Kept files are written in place and loaded unchecked: after a crash while saving, every
  later start uses the incomplete file (`C86_cut_refuted`, `C88_cut_refuted`).
* The map is drawn only if there is none: a changed infrastructure is served with the map
  of the old one (`C88_changed_refuted`). Its file name is the infrastructure's name with
  everything behind the last dot replaced, so `net.1` and `net.2` share a map
  (`C88_names_refuted`).
* One infrastructure that cannot be read keeps the server from starting
  (`C86_unreadable_refuted`).
* When halts are indexed for the search, the tests whether the two identifiers are empty
  are swapped: a halt with only one of them gets a result without a name
  (`C89_nameless_refuted`) and is not found under the one it has (`C90_halt_refuted`).
  The result by operational identifier lacks the element type (`C89_type_refuted`).
* Queries of less than three characters are rejected, but DS100 codes may have two
  (`C90_short_refuted`).
* The number in a request for an element or an exclusion set is used unchecked
  (`C91_element_refuted`, `C91_set_refuted`); numbers of 2^32 and more fail an
  assertion in every request (`C91_big_refuted`).
* The ordering graph shown lacks trips under way since the day before and trains without
  main signals on their paths (`C92_overnight_refuted`, `C92_signalless_refuted`). The
  address pattern admits a list of trains that starts with a comma, which is then rejected
  (`C92_address_refuted`).

Generators

* The exception of a yielded generator that fails before its first value is swallowed:
  `yield_value` finds the coroutine complete and goes on without asking for its
  exception (recursive_generator.h:84-99). A nested route that fails at once looks like
  an empty route (`C93_swallowed_refuted`).
* `generator` has an empty `unhandled_exception` (generator.h:65). `coro_map` over an
  iteration that fails is therefore cut short without notice, for instance in
  `train::path_length` (train.cc:71) and the search answer (search_module.cc:46)
  (`C94_forgotten_refuted`).

Rolling stock
* Series and owner are joined by a dash without escaping, so two different pairs share
  a key (`C75_right_series_refuted`). Variant numbers are cut to 32 bits
  (`C75_variant_number_refuted`). The lookup reads its views beyond their end
  (`C75_views_refuted`). Only the first power supply system of a variant is read.
* A train without traction units is accepted (`C76_no_units_refuted`). The weight of a
  train does not include its traction vehicles.
* The default speed limit is the only default that must not be written with a comma.

Map generator (tools/generate-osm)
* Ids are compared as numbers and errors of the conversion are dropped: ids that are no
  numbers are all equal, and all but the first entry are lost (`C97_kept_refuted`).
  `search` compares with the end instead of the middle and misses elements of a sorted
  list (`C97_search_refuted`); its use on sorted data hides this.
* The loop in `generateOsm` removes stops from the list it ranges over. The node behind
  a removed one is skipped, so of two stops in a row the second stays, and its unmarked
  copy wins over the curated one (`C99_removed_refuted`, `C99_marked_refuted`). With a stop at the end and
  another one before it the program crashes (`C99_panics`).
* `-123` passes as the number of a line; a four-letter ref hides the following ones of its
  relation (`C100_lines_refuted`).
* `insertOsm` compares the file name without its last four characters with `.xml`, so
  every ordinary name is rejected (`C101_name_refuted`); it copies new nodes but not the
  courses of the ways (`C101_refuted`), and the bound on ids also copies all other nodes.
* `goDirection` never ends on a ring of nodes at the same place (`C102_ends_refuted`).
* `findNodes` refuses a node at which two ways both begin, or both end, though the track
  goes on there (`C103_usable_refuted`).
* `findClosestMatch` stores `downNode1` in place of `downNode2` in its second pair
  (find-closest-match.go:50): a node of the wrong search is returned, up to the whole
  distance away (`C103_new_node_refuted`).
* A line with one anchored kilometrage is written without its elements, and none of them
  is reported; a line without any is not written at all (`C106_few_anchors_refuted`).
* Where one way ends and the next begins a new node is put into both ways: the piece of
  track is there twice, and later searches from the new node are refused
  (`C107_joint_refuted`).
* `processHauptsignal` returns after the first signal it anchored (map-signals.go:109); the
  remaining signals of this node and direction are neither anchored nor reported
  (`C108_second_signal_refuted`). A falling signal whose anchor is undone while rising
  signals are looked at is reported, and later placed, as a rising one
  (`C108_direction_refuted`).
* Undoing the anchors of a kilometrage takes every anchor for a main signal: with a switch
  among them the program crashes on `Tag[3]` (`C108_crash_refuted`) or deletes the last four
  tags of the switch on the map and reports a signal named after one of them
  (`C108_tags_refuted`). For switches conflicts are not looked for (`C108_consistent_refuted`).
* `foundSwitch` is never reset (map-switches.go:23): after a switch that was found the
  ones that are not found are not reported (`C109_missing_refuted`).
- C111: the simulation is unfinished. A debug build refuses every timetable that has a
  train (`C111_debug_refuted`); a release build reads results that were never
  allocated (`C111_simulate_refuted`).
- C113: the path of `Index.xml` is meant to be accepted, but the directory is loaded as
  the index, which fails (iss_files.cc:54, `C113_index_refuted`).
- C114: missing source directories are never noticed, the test is
  `!exists && is_directory` (main.cc:47, 54, `C114_sources_refuted`).
- C116-C118: the client does not check to which request an answer belongs. Answers that
  overtake each other leave the timetables of another infrastructure
  (`C116_overtaken_refuted`) or results of another text (`C118_overtaken_refuted`,
  `C118_late_refuted`), and a route removed too early is drawn for good
  (`C117_late_refuted`). Without any race the timetables stay when the selection is
  cleared, the time range and the routes of the old infrastructure stay for the new one
  (`C116_cleared_refuted`, `C117_foreign_refuted`).
- C118: in results in which the text does not occur the first letters are emphasised
  (`indexOf` is -1, `C118_emphasis_refuted`).
- C119: the expression of the field for train ids admits a leading comma, which is sent as
  `NaN` (`C119_comma_refuted`); an emptied field emits nothing, so the filter stays
  (`C119_cleared_refuted`).
- C120: answers go into whatever graph the component holds when they arrive: two
  overlapping requests are mixed, or the second import throws and the outdated graph stays
  (`C120_overlap_refuted`); without a timetable the old graph stays (`C120_stale_refuted`).
- C121: every choice stores all settings of its page, so it undoes what was chosen on another
  page since (`C121_windows_refuted`) and brings back what was cleared
  (`C121_cleared_refuted`).
- C122: `resetLegend` makes the tab refer to the module's array of initial boxes itself, and
  ticking pushes into it: the next reset and new tabs show the box ticked
  (`C122_reset_refuted`), and two tabs that were reset share their boxes though not their maps
  (`C122_shared_refuted`). A change of theme replaces the style: the filter for directions and
  the highlighted routes are gone (`C122_theme_refuted`).
- C123: a new tab gets the index of the tab closed last and with it its stored legend
  (`C123_reused`).
- C124: `stations()` of the client asks for `/infrastructure/NAME/stations`, the server only knows
  `.../stations/`; infrastructures, timetables and search texts with a character other than
  letters, digits, `_` and `-` (a dot in a directory name, a space in the name of a
  station) are never found although they are offered (`C124_lost_refuted`,
  `C124_reached`). `serve_timetable_names` uses `at` and throws for an unknown
  infrastructure (`C124_timetables_refuted`).
- C125: `fetchStation` writes whatever answer comes last into the pane, so a late answer replaces
  the station clicked last (`C125_overtaken_refuted`); the watcher compares numbers only, so
  after loading another infrastructure a click on the station of the same number does nothing
  (`C125_same_number_refuted`). A switch reads `initiallyChecked` once: turned off before the
  route arrived, failed, or drawn anew meanwhile, it disagrees with the map
  (`C125_switches_refuted`). Highlighted routes and the selected station outlive their
  infrastructure (`C125_infrastructure_refuted`).
- C126: one request ends a running server: `/infrastructure/NAME/element/N` with a number
  beyond the last element reads outside of a vector, a number of 2^32 or more fails an
  assertion, `/infrastructure/X/timetables` for an unknown X throws (`C126_fatal_refuted`,
  `C126_crash_refuted`). A text with a blank, dot or umlaut never reaches the search
  (`C126_unsearchable_refuted`).
- C127: the boxes of the menu and the field of the range start empty and only follow changes
  of the value they are given. The menu is made anew when its overlay comes back, so after a look
  at the search or a station all three are empty although infrastructure, timetable and range are
  still in use (`C127_opened_again_refuted`); emptying the field does not change the range in use
  (`C127_emptied_refuted`).
- C128: the list of results is drawn for more than one result, so a single one is not shown
  (`C128_one_result_refuted`); the map follows changes of the box stored, so choosing the same
  result again does not bring it back (`C128_again_refuted`); results outlive their infrastructure
  and their field (`C128_other_infrastructure_refuted`, `C128_overlay_refuted`).
- C129: the end of a special speed limit has no limit in the input, the number is NaN, and NaN is written into the answer
  about the element as such, which is not JSON: the request of the client is rejected (`C129_element_refuted`; that the
  writer writes NaN is cereal's default and trusted).
- C130: `id_iterator::operator->` does not check the identifier as `operator*` does, and reads outside of the container for
  one that is too large (`C130_arrow_refuted`); its `it + d` and `it - d` return the type of the inner iterator and cannot be
  built (not modelled, nothing uses them).
- C131: names of members differ between the server and the client: `from_element`/`fromElement` and `to_element`/`toElement` of
  station routes (`C131_station_refuted`; fetched alone they have none, `C131_station_route_refuted`), `id_extern`/`idExtern` and
  `id_op`/`idOp` of halts (`C131_halt_refuted`), `point_of_activation`/`pointOfActivation` of speed limits (`C131_limit_refuted`);
  the list of stations holds objects, not texts (`C131_stations_refuted`); the declared box of a search result is wrapped once
  more than the one sent (`C131_search_refuted`).
- C115: a train that halts where no route passes and later at a signal shared by two routes
  is imported with the right number of halts, but its first halt does not lie on its first
  route: iterating over it fails an assertion (`C115_late_refuted`).

Running time and distributions
* Coasting at speed 0 divides by zero; traction below resistance at standstill never
  ends; braking may record decreasing distances; elements within a centimetre of a
  halt get its arrival; a LAST_SIGNAL limit is lost when its signal lies within a
  centimetre of the border before (`C59_last_signal_refuted`).  Limits are lowered in steps of
  1 m/s and no further than braking takes (`C59_lowered_least_partial`).
* Inserting below the first value of a distribution fails: k buckets below the first of n
  it throws if 2 <= k < n and otherwise accesses memory outside of its vectors; with
  speeds it always accesses memory outside. Negative values round
  towards zero, iterating over pairs shifts the speed by one, buckets below one per
  cent vanish, the delay probabilities exceed one (`C46_*_refuted`, `C61_*_refuted`).

Ordering
* Trains without main signals are ignored, ties may close a cycle, removing
  transitive edges on cycles loses connections, `path_exists(s, s)` is false
  (`C18_edge_once_refuted`, `C21_cycle_refuted`, `C22_ties_refuted`, `C24_next_refuted`, `C24_between_refuted`);
  `next()` can hand out a node of another trip of the same train (`C24_wrong_trip_refuted`).

## 5. Print Assumptions

Every theorem of `PropsX.v` is followed by `Print Assumptions`. All of them print
"Closed under the global context", except those of `PropsGeo.v` and `PropsOsm.v` (C80 - C85), which are
about real numbers and rest on axioms of Coq's standard library for them:
`ClassicalDedekindReals.sig_not_dec`, `ClassicalDedekindReals.sig_forall_dec`,
`FunctionalExtensionality.functional_extensionality_dep` and (through the series for the
arc tangent) `Classical_Prop.classic`. No other axiom is used by any theorem.
(`vcheck` also lists the fields of `Coq.ssr.ssrunder.Under_rel`, a module type
of the standard library that is loaded transitively and that no theorem
depends on.) `vm_compute` is used in the examples and refutations.

## 6. What is modelled

| files of `/repo` | model |
|---|---|
| `infrastructure/exclusion/exclusion_set.{h,cc}` | `ExclusionSetModel` |
| `infrastructure/exclusion/{get_exclusion,exclusion_elements,get_exclusion_graph,read_cliques}.cc`, `graph/section.h` | `ExclModel` |
| `timetable/bitfield.{h,cc}`, `base/time.h` | `BitfieldModel` |
| `timetable/train.{h,cc}`, `interval.h` | `TrainModel`, `TrainIterModel` |
| `timetable/sequence_point.cc`, `parsers/station_route_to_interlocking_route.cc` | `TransformModel` |
| `timetable/parsers/kss/parse_kss_timetable.cc` | `KssModel` |
| `utls/graph/*` | `GraphModel` |
| `simulation/ordering/*` | `OrderingModel` |
| `simulation/dpd.h`, `disruption.h`, `granularity.h` | `DpdModel` |
| `utls/algo/*` | `AlgoModel` |
| `utls/container/optional.h`, `parse_int.h`, `string.h`, `graph/type.{h,cc}` | `TextModel` |
| `si/*`, `utls/strong_types/*` | `UnitModel` |
| `utls/math/*`, `rolling_stock/train_physics.cc`, `runtime/runtime_physics.cc` | `PhysModel` |
| `runtime/interval.{h,cc}`, `runtime/runtime.cc` | `RunModel` |
| `utls/parse_fp.h`, `rolling_stock/{parse_train_series,rolling_stock}.cc`, `parse_core_data`, `parse_characteristic` | `StockModel` |
| `layout/layout.cc`, `layout/layout_to_gps.cc:24-140`, `parsers/parse_station_coords.cc`, `station/station.cc` (neighbours) | `LayoutModel` |
| `utls/coordinates/*`, `layout/layout_to_gps.cc:142-315` (`resolve_overlaps` is not called and not modelled) | `GeoModel` |
| `web/server/src/modules/tiles/osm_export/*` (the file itself is not written; `element_to_interpolation_nodes_` is never read) | `OsmModel` |
| `web/server/src/{soro_server.cc: constructor, modules/infrastructure/infrastructure_module.cc, modules/timetable/timetable_module.cc, modules/tiles/tiles_module.cc}`, `timetable/timetable.cc`, `utls/serializable.h` (which files are read and written; reading and drawing themselves are parameters) | `StartModel` |
| `web/server/src/modules/search/*`, `web/server/src/modules/infrastructure/serve_*.cc` (without router, JSON texts and the guesser) | `ServeModel` |
| `web/server/src/modules/ordering/serve_ordering_graph.cc` (without router and JSON texts) | `OgServeModel` |
| `parsers/iss/get_infra_stats.cc`, `infra_stats.h` | `StatModel` |
| `tools/export_exclusion_graph/src/export_exclusion_graph.cc` (`write_out`) | `ExportModel` |
| `tools/generate-osm/osm-utils/*.go`, `combine-lines/combine-lines.go` (without colours), `main.go` (removal of stops, `insertOsm`) | `GenOsmModel` |
| `tools/generate-osm/db-utils/find-nodes/*.go` (the haversine formula is a parameter) | `GenFindModel` |
| `utls/narrow.h`, `parsers/iss/iss_files.cc`, `web/server/src/main.cc` (checks) | `MiscModel` |
| `src/simulation/sim_graph.cc` (without the parts that are commented out) | `SimModel` |
| `tools/generate-osm/db-utils/{db-parser,db-mapper}.go`, `mapper/*.go` (without XML; kilometrages are read already) | `GenMapModel` |
| `utls/coroutine/recursive_generator.h`, `generator.h` (as used by `coro_map`), `coro_map.h`, `collect.h` | `CoroModel` |
| `infrastructure/line.cc`, `regulatory_data.cc`, `coordinates/gps.h` | `LineModel` |
| `station/station_route*.cc`, `interlocking/*.cc` | `RouteModel` |
| `graph/graph_creation.cc`, `element.{h,cc}`, `parsers/iss/parse_iss.cc`, `parse_track_element.cc` | `InfraModel` |
| `parsers/iss/parse_station_route.cc`, `path/length.h`, `station_route_graph.cc` | `StationModel` |
| `web/client/src/stores/sidebar-store.ts`, `util/SoroClient.ts` (which requests are made), `components/sidebar/search/extended-search.vue` | `ClientStoreModel` |
| `web/client/src/components/{base/soro-id-input,base/soro-datetimerange,ordering/ordering-graph,sidebar/search/extended-search}.vue` (without drawing) | `ClientViewModel` |
| `web/client/src/{stores/settings-store.ts,stores/golden-layout-store.ts,golden-layout/golden-layout-adapter.vue}`, `components/infrastructure/{infrastructure-map.vue,infrastructure-legend.vue,map-style.ts}` (without drawing, icons and clicks) | `ClientTabsModel` |
| `web/server/src/soro_server.cc: set_up_routes` (the matching of `net::query_router` is assumed: first route that matches the whole address), `web/client/src/util/SoroClient.ts`, `web/server/src/modules/timetable/serve_timetable{,_names}.cc` | `RouterModel` |
| `web/client/src/components/sidebar/{sidebar.vue,station/station.vue}`, `components/base/soro-switch.vue`, the click of `infrastructure-map.vue` | `ClientStationModel` |
| `web/client/src/components/sidebar/menu/menu.vue` (boxes, field and buttons for tabs), `components/base/{soro-select,soro-datetimerange}.vue` | `ClientMenuModel` |
| `web/client/src/components/sidebar/search/extended-search.vue` (list, button, field per overlay), the box of `infrastructure-map.vue` | `ClientSearchModel` |
| `web/server/include/soro/server/cereal/json_archive.h`, `cereal_extern.h`, the texts of `serve_search.cc`, `serve_element.cc`, `serve_bounding_box.cc`, and `web/client/src/util/HttpClient.ts` (`_fetchJSON`) | `AnswerModel` |
| `include/soro/utls/container/id_iterator.h`, `it_range.h`, `interlocking_route::station_routes`, `train::path` | `IdIterModel` |
| `include/soro/base/error.h` (`stats`: lock, accesses of the counts, report) | `ErrStatsModel` |
| `kss_error.{h,cc}`, `route_transform_error.{h,cc}`, `rolling_stock_error.{h,cc}`, `timetable_error.{h,cc}` | `ErrTextModel` |
| the types of `web/client/src/util/SoroClient.ts`, the texts of the other `serve_*.cc` but the exclusion set and the ordering graph | `AnswerTypesModel` |
| `web/server/src/soro_server.cc` (routes with their functions), parameters in `serve_*.cc`, `tiles_module.cc:16-49` (lookup only) | `WebModel` |
| the way from plan to interlocking (`parse_iss`, `get_interlocking`) | `WholeModel` |

Not modelled: XML reading (the models start from parsed attribute values), files and
directories, cista serialization, logging and progress bars, the tile database, HTTP
handling and the command line, GPU code, memory allocation and pointers (indices
instead). In the other models the generators of routes are lists, which is what
`CoroModel` shows them to be (C93, C94); an assertion that fails inside a yielded
generator is a throw there, although it is swallowed if the generator has not
delivered a value (C93).

General simplifications (each is repeated at the definition it applies to)
* `double` quantities (kilometrages, speeds, times in the running time calculation)
  are exact rationals; comparisons with a tolerance keep the tolerance.
* Parallel loops are modelled by every interleaving of their atomic steps where the result
  may depend on it (exclusion), otherwise sequentially.
* Containers are lists, pointers are positions in them.

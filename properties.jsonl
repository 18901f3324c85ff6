{"id": "C01", "title": "An exclusion set contains exactly the ids it was made from", "statement": "For every ascending list of ids (all below 2^32-64), make_exclusion_set succeeds without tripping an assertion or an out-of-bounds access, s[i] is true exactly for the ids in the list, expanded_set() is the ascending duplicate-free list of them, and count() is their number.", "quantifier": "all sorted id lists (any length, duplicates allowed, ids < 2^32-64), all queried ids", "why_tests_cant": "The blocks/offset arithmetic has a different shape for every alignment of the smallest and largest id; tests sample a handful of alignments.", "anchors": ["include/soro/infrastructure/exclusion/exclusion_set.h: exclusion_set", "src/infrastructure/exclusion/exclusion_set.cc", "make_exclusion_set", "exclusion_set::operator[]", "exclusion_set::expanded_set", "exclusion_set::count"]}
{"id": "C02", "title": "Union of exclusion sets is set union", "statement": "For all exclusion sets a, b obtainable through the API, a | b (and a |= b) contains an id iff a or b contains it, never fails an internal check, and leaves b unchanged.", "quantifier": "all pairs of reachable exclusion sets, all ids", "why_tests_cant": "Correctness depends on the relative block offsets and sizes of both operands, an unbounded two-dimensional space.", "anchors": ["include/soro/infrastructure/exclusion/exclusion_set.h: exclusion_set", "src/infrastructure/exclusion/exclusion_set.cc", "exclusion_set::operator|=", "lower_first", "increase_last"]}
{"id": "C03", "title": "Difference of exclusion sets is set difference", "statement": "For all reachable a, b, a - b (and a -= b) contains an id iff a contains it and b does not; never fails an internal check or reads outside the block arrays.", "quantifier": "all pairs of reachable exclusion sets, all ids", "why_tests_cant": "Needs all overlaps/offsets and the re-compaction after removing leading or trailing blocks.", "anchors": ["include/soro/infrastructure/exclusion/exclusion_set.h: exclusion_set", "src/infrastructure/exclusion/exclusion_set.cc", "exclusion_set::operator-=", "compact", "get_first_set", "get_last_set"]}
{"id": "C04", "title": "Setting an id adds exactly that id", "statement": "For every reachable exclusion set s and id i, after s.set(i) the set contains exactly the old ids plus i.", "quantifier": "all reachable exclusion sets including the empty one, all ids < 2^32-64", "why_tests_cant": "Growing in front, growing at the back and in-place updates behave differently; the empty set is a special state.", "anchors": ["include/soro/infrastructure/exclusion/exclusion_set.h: exclusion_set", "src/infrastructure/exclusion/exclusion_set.cc", "exclusion_set::set"]}
{"id": "C05", "title": "compare() decides the subset order", "statement": "For all reachable a, b: compare(a,b) is equivalent iff they have the same ids, less iff a is a proper subset of b, greater iff a proper superset, unordered otherwise; contains(a,b) iff b is a subset of a.", "quantifier": "all pairs of reachable exclusion sets", "why_tests_cant": "A four-way decision over all pairs of sets, with shortcuts on block bounds.", "anchors": ["include/soro/infrastructure/exclusion/exclusion_set.h: exclusion_set", "src/infrastructure/exclusion/exclusion_set.cc", "exclusion_set::compare", "exclusion_set::contains", "contains_impl", "contains_impl_same_size"]}
{"id": "C06", "title": "Exclusion-set invariant and canonical representation survive every operation sequence", "statement": "Every sequence of make/set(on non-empty)/|=/-=/clear leads to a set for which ok() is true and no assertion fired; two reachable sets with the same ids have identical representation (apart from id_).", "quantifier": "all finite operation histories", "why_tests_cant": "Histories are unbounded; a violation may need a particular sequence of growth and shrinkage.", "anchors": ["include/soro/infrastructure/exclusion/exclusion_set.h: exclusion_set", "src/infrastructure/exclusion/exclusion_set.cc", "exclusion_set::ok", "exclusion_set::operator=="]}
{"id": "C07", "title": "Iterating an exclusion set enumerates it in ascending order", "statement": "For every reachable non-empty set, iterating from begin() to end() terminates and yields exactly expanded_set(), ascending; count() is the number of members and any() says whether there is one.", "quantifier": "all reachable exclusion sets", "why_tests_cant": "Iterator stepping over gaps of every length and over block borders.", "anchors": ["include/soro/infrastructure/exclusion/exclusion_set.h: exclusion_set", "src/infrastructure/exclusion/exclusion_set.cc", "exclusion_set::iterator", "exclusion_set::begin", "exclusion_set::end"]}
{"id": "C08", "title": "make_bitfield maps the i-th mask character to the i-th day", "statement": "For every first/last date pair spanning at most 512 days and every 0/1 mask of matching length, at(day) is true iff the mask character for that day is '1', days outside the range are rejected by at(), and get_set_days() is the ascending list of these days.", "quantifier": "all date ranges of at most 512 days, all masks, all days", "why_tests_cant": "2^512 masks and all range lengths; the mask is reversed into a right-aligned buffer.", "anchors": ["include/soro/timetable/bitfield.h: bitfield", "src/timetable/bitfield.cc", "make_bitfield", "bitfield::at", "bitfield::get_set_days"]}
{"id": "C09", "title": "bitfield::set changes exactly one day", "statement": "For every valid bitfield and every day such that the enlarged range still spans at most 512 days, set(day,v) makes that day have value v, keeps the value of every other day, and the covered range becomes the hull of the old range and the day.", "quantifier": "all valid bitfields, all days (before, inside, after the range), both values", "why_tests_cant": "Extending to the left shifts the whole bitset; tests only try a few shifts.", "anchors": ["include/soro/timetable/bitfield.h: bitfield", "src/timetable/bitfield.cc", "bitfield::set", "in_range", "get_idx"]}
{"id": "C10", "title": "Bitfield union is the union of days", "statement": "For all valid bitfields whose hull spans at most 512 days, a day is set in a|b iff it is set in a or in b, and the covered range is the hull of both ranges.", "quantifier": "all pairs of valid bitfields, all days", "why_tests_cant": "Relative shift of both operands is arbitrary.", "anchors": ["include/soro/timetable/bitfield.h: bitfield", "src/timetable/bitfield.cc", "bitfield::operator|=", "operator|"]}
{"id": "C11", "title": "Iterating a bitfield window enumerates exactly the set days in the window", "statement": "For every valid bitfield and all times t1 <= t2, iterating [from(t1), to(t2)) terminates and yields in ascending order exactly the set days between midnight(t1) and midnight(t2), both inclusive.", "quantifier": "all valid bitfields, all pairs of times", "why_tests_cant": "Window borders before, inside, after the range and gaps of every length; a from-iterator past the to-iterator would loop out of bounds.", "anchors": ["include/soro/timetable/bitfield.h: bitfield", "src/timetable/bitfield.cc", "bitfield::from", "bitfield::to", "bitfield::iterator"]}
{"id": "C12", "title": "Counting and extreme set days of a bitfield", "statement": "count() equals the number of set days; first_set_date()/last_set_date() of a bitfield with a set day are the minimum/maximum set day.", "quantifier": "all valid bitfields", "why_tests_cant": "All masks; last_set_date starts searching at the last covered day.", "anchors": ["include/soro/timetable/bitfield.h: bitfield", "src/timetable/bitfield.cc", "bitfield::count", "bitfield::first_set_date", "bitfield::last_set_date"]}
{"id": "C13", "title": "bitfield::equivalent recognises equal day sets", "statement": "equivalent(a,b) is true iff a and b have the same set days, whatever their covered ranges.", "quantifier": "all pairs of valid bitfields", "why_tests_cant": "Equivalence must hold over arbitrary padding of the covered ranges.", "anchors": ["include/soro/timetable/bitfield.h: bitfield", "src/timetable/bitfield.cc", "bitfield::equivalent"]}
{"id": "C14", "title": "departures(interval) yields exactly the service days whose trip overlaps the interval", "statement": "For every train and interval, departures(interval) yields, in ascending order and without duplicates, exactly the service days d such that the trip [d+first departure, d+last arrival] overlaps the interval.", "quantifier": "all trains (bitfield, first departure, last arrival incl. past midnight), all intervals", "why_tests_cant": "Overnight trips, intervals starting mid-day and multi-day intervals combine arbitrarily.", "anchors": ["include/soro/timetable/train.h: train", "src/timetable/train.cc", "train::departures", "train::event_interval"]}
{"id": "C15", "title": "Trips of a train: one per service day", "statement": "trip_count() and the enumerated trips agree: exactly one trip per set service day with that day's midnight as anchor.", "quantifier": "all trains", "why_tests_cant": "All calendars.", "anchors": ["include/soro/timetable/train.h: train", "src/timetable/train.cc", "train::trips", "train::trip_count"]}
{"id": "C16", "title": "has_cycle is true exactly for cyclic graphs", "statement": "For every finite directed graph whose neighbour ids are in range, has_cycle terminates and returns true iff the graph has a directed cycle.", "quantifier": "all finite directed graphs", "why_tests_cant": "All graph shapes; recursion with two colour arrays across start nodes.", "anchors": ["include/soro/utls/graph/has_cycle.h: has_cycle"]}
{"id": "C17", "title": "Graph traversal visits exactly the reachable nodes", "statement": "For every finite graph and start, bfs and dfs terminate, call the node callback for exactly the nodes reachable from start over at least one edge other than start itself (start is never passed), each exactly once, and pass a real predecessor edge.", "quantifier": "all finite directed graphs, all start nodes, both container disciplines", "why_tests_cant": "All graph shapes and visiting orders.", "anchors": ["include/soro/utls/graph/traversal.h: graph_traversal, bfs, dfs"]}
{"id": "C18", "title": "Every edge callback is made exactly once per reachable edge", "statement": "The documentation promises that every edge found during traversal is handed to the edge callback exactly once.", "quantifier": "all finite directed graphs and start nodes", "why_tests_cant": "Depends on whether start is re-entered through a cycle.", "anchors": ["include/soro/utls/graph/traversal.h: graph_traversal, bfs, dfs"]}
{"id": "C19", "title": "Reachability queries on ordering graphs are exact", "statement": "get_reachable_nodes(og,s) marks exactly the nodes reachable from s (including s), and path_exists(og,s,t) for s != t is true iff there is a path from s to t.", "quantifier": "all ordering graphs with in-range edges, all node pairs", "why_tests_cant": "All graphs.", "anchors": ["src/simulation/ordering/check_exclusion_paths.cc: get_reachable_nodes, path_exists"]}
{"id": "C20", "title": "get_cycle returns a genuine shortest cycle", "statement": "get_cycle(og) is empty iff og is acyclic; otherwise it returns a closed walk along edges of og whose length is minimal among all cycles of og.", "quantifier": "all ordering graphs with in-range edges", "why_tests_cant": "All graphs; relies on BFS order and predecessor bookkeeping.", "anchors": ["src/simulation/ordering/get_cycle.cc: get_shortest_cycle_from_node, get_cycles, get_cycle"]}
{"id": "C21", "title": "remove_transitive_edges preserves reachability", "statement": "After remove_transitive_edges every pair of nodes connected by a path before is still connected, no new connection appears, and no remaining edge is implied by a longer path; in- and out-lists stay mirror images.", "quantifier": "all ordering graphs", "why_tests_cant": "All graph shapes; edges are removed simultaneously based on the original graph.", "anchors": ["src/simulation/ordering/remove_transitive_edges.cc: get_transitive_edges, remove_transitive_edges"]}
{"id": "C22", "title": "Ordering graph orders every pair of conflicting route usages", "statement": "For every set of trips and exclusion sets, any two nodes whose interlocking routes share an exclusion set are connected by a path in one of the two directions in the constructed ordering graph, and every path that existed from consecutive usages of a trip is present.", "quantifier": "all timetables (trips, usage times) and all exclusion-set families", "why_tests_cant": "All timetables; edges are only inserted between neighbours of a sorted list and later reduced.", "anchors": ["src/simulation/ordering/ordering_graph.cc: ordering_graph::ordering_graph", "src/simulation/ordering/check_exclusion_paths.cc: has_exclusion_paths"]}
{"id": "C23", "title": "Ordering graph is acyclic when usage times are tie-free", "statement": "If usage start times increase strictly along each trip and no two usages in the same exclusion set start at the same time, the constructed ordering graph has no cycle.", "quantifier": "all timetables satisfying the tie-freeness condition", "why_tests_cant": "All timetables.", "anchors": ["src/simulation/ordering/ordering_graph.cc: ordering_graph::ordering_graph"]}
{"id": "C24", "title": "ordering_node::next is the next node of the same trip", "statement": "For every node of the constructed ordering graph that is not the last of its trip, next() is the following node of the same trip.", "quantifier": "all timetables and exclusion families", "why_tests_cant": "next() uses the front of a sorted, transitively reduced edge list.", "anchors": ["src/simulation/ordering/ordering_graph.cc: ordering_node::next"]}
{"id": "C25", "title": "has_exclusion_paths is a correct checker", "statement": "has_exclusion_paths(og, infra) is true iff any two distinct nodes whose routes lie in a common exclusion set are connected by a path in one direction.", "quantifier": "all ordering graphs and exclusion tables", "why_tests_cant": "All graphs and tables.", "anchors": ["src/simulation/ordering/check_exclusion_paths.cc: get_exclusions, has_exclusion_paths"]}
{"id": "C26", "title": "Merging sorted ranges without duplicates", "statement": "merge_unique of two strictly ascending sequences and multi_set_merge of any number of strictly ascending sequences return the strictly ascending sequence of all their elements.", "quantifier": "all (families of) sorted sequences", "why_tests_cant": "All lengths, interleavings, numbers of ranges, empty ranges.", "anchors": ["include/soro/utls/algo/merge_unique.h", "include/soro/utls/algo/multi_set_merge.h"]}
{"id": "C27", "title": "overlap tells whether two sorted sequences share an element", "statement": "overlap(a,b) is true iff a and b share an element; get_overlap/intersect return exactly the common elements.", "quantifier": "all pairs of sorted sequences", "why_tests_cant": "All interleavings.", "anchors": ["include/soro/utls/algo/overlap.h", "include/soro/utls/algo/sort_and_intersect.h"]}
{"id": "C28", "title": "Slicing and trimming helpers", "statement": "slice(c,from,to) yields exactly the elements with index in [from,to); the clamping variant replaces a start beyond the size by 0 and an end beyond the size by the size; remove_after keeps the prefix through the last element satisfying the predicate, remove_until drops everything before the first one.", "quantifier": "all sequences, bounds and predicates", "why_tests_cant": "All index combinations.", "anchors": ["include/soro/utls/algo/slice.h", "include/soro/utls/algo/remove_after.h", "include/soro/utls/algo/remove_until.h"]}
{"id": "C29", "title": "Sentinel optional behaves like an optional over all non-sentinel values", "statement": "For every value other than the sentinel, an optional constructed from it has a value and returns it; assigning, resetting, swapping and or_else behave as for std::optional over every operation sequence.", "quantifier": "all operation sequences and values", "why_tests_cant": "The sentinel collides with one value of the value type.", "anchors": ["include/soro/utls/container/optional.h"]}
{"id": "C30", "title": "Integer parsing accepts exactly in-range decimal numerals", "statement": "parse_int/try_parse_int of a decimal rendering of any representable value returns that value; any string that is not completely an optional minus sign followed by digits, or whose value is out of range, is rejected.", "quantifier": "all strings and all integer widths used", "why_tests_cant": "Infinite string space.", "anchors": ["include/soro/utls/parse_int.h"]}
{"id": "C31", "title": "Splitting a string is lossless", "statement": "split(s, token) yields the pieces between non-overlapping occurrences of the token: joining them with the token gives back s, and no piece contains the token.", "quantifier": "all strings and separators", "why_tests_cant": "Infinite string space; leading, trailing and repeated separators.", "anchors": ["include/soro/utls/string.h: split"]}
{"id": "C32", "title": "Element type names are told apart by their hash", "statement": "get_type gives every ISS element name the type the format assigns to it, although it only compares hashes; names outside the format give INVALID; the display names of two different types differ.", "quantifier": "all strings and all element types", "why_tests_cant": "All strings: the switch compares 32-bit hashes, so collisions decide.", "anchors": ["src/infrastructure/graph/type.cc: get_type", "include/soro/infrastructure/graph/type.h", "include/soro/utls/string.h: str_hash"]}
{"id": "C33", "title": "Element-usage index is the exact inverse, independent of the thread count", "statement": "closed_element_used_by[e] is the ascending list of exactly those interlocking routes that use e, for every number of worker threads and every interleaving of the workers.", "quantifier": "all route/element tables, all thread counts >= 1, all schedules", "why_tests_cant": "Work is split in batches by hardware concurrency; schedules cannot be enumerated by tests.", "anchors": ["src/infrastructure/exclusion/get_exclusion.cc: get_closed_element_used_by"]}
{"id": "C34", "title": "Exclusion sets and the route-to-set index are mutually inverse", "statement": "A route id is listed for an exclusion set iff the set contains the route.", "quantifier": "all families of exclusion sets", "why_tests_cant": "All families.", "anchors": ["src/infrastructure/exclusion/get_exclusion.cc: get_irs_to_exclusion_sets"]}
{"id": "C35", "title": "The exclusion graph connects exactly the conflicting routes", "statement": "Route j is a neighbour of route i iff they use a common exclusion element, except for the routes starting at i's end or ending at i's start; the neighbour lists are ascending and duplicate free and the relation is symmetric.", "quantifier": "all route/element tables", "why_tests_cant": "All tables.", "anchors": ["src/infrastructure/exclusion/get_exclusion_graph.cc"]}
{"id": "C36", "title": "Iterating a sub-range of a station route", "statement": "from_to(a,b) yields exactly the nodes with index in [a,b) in order, each flagged omitted and carrying its extra speed limit exactly as in the full iteration.", "quantifier": "all station routes and index pairs", "why_tests_cant": "All positions of omitted nodes and extra speed limits relative to the range.", "anchors": ["src/infrastructure/station/station_route.cc: station_route::from_to"]}
{"id": "C37", "title": "Iterating an interlocking route yields the concatenation of its station-route pieces", "statement": "Iterating an interlocking route yields exactly the nodes from its start node to its end node along its station routes, without gaps or repetitions.", "quantifier": "all interlocking routes", "why_tests_cant": "Any number of station routes and offsets.", "anchors": ["src/infrastructure/interlocking/interlocking_route.cc: interlocking_route::iterate, from_to"]}
{"id": "C38", "title": "Interlocking indices are consistent", "statement": "The starting-at, ending-at, through-station and station-route-to-interlocking-route tables list exactly the routes with the respective property.", "quantifier": "all interlocking tables", "why_tests_cant": "All tables.", "anchors": ["src/infrastructure/interlocking/get_interlocking.cc"]}
{"id": "C39", "title": "Station routes to interlocking routes: result is a connected cover", "statement": "When the timetable parser maps a sequence of station routes to interlocking routes successfully, consecutive interlocking routes connect (the next starts where the previous ends) and together they cover exactly the given station-route sequence.", "quantifier": "all station-route sequences and interlocking tables", "why_tests_cant": "All tables, greedy longest-prefix selection.", "anchors": ["src/timetable/parsers/station_route_to_interlocking_route.cc"]}
{"id": "C40", "title": "Service calendar accumulation", "statement": "parse_services yields the bitfield whose set days are (union of regular masks and included special days) minus excluded special days; order of the services does not matter.", "quantifier": "all lists of service definitions", "why_tests_cant": "All masks, overlaps and special-day lists.", "anchors": ["src/timetable/parsers/kss/parse_kss_timetable.cc: parse_services"]}
{"id": "C41", "title": "Time and duration parsing", "statement": "parse_time_offset and parse_duration return the number of seconds denoted by every well-formed HH:MM:SS / PTxHyMzS string and reject or stay in bounds on everything else.", "quantifier": "all strings", "why_tests_cant": "Infinite string space, including truncated strings.", "anchors": ["src/timetable/parsers/kss/parse_kss_timetable.cc: parse_time_offset, parse_duration"]}
{"id": "C42", "title": "Timetable interval covers every event and ids are positions", "statement": "After parsing, train ids equal positions; the timetable interval contains every trip of every train and is tight.", "quantifier": "all timetables", "why_tests_cant": "All timetables.", "anchors": ["src/timetable/parsers/kss/parse_kss_timetable.cc: set_ids, get_interval"]}
{"id": "C43", "title": "Parallel timetable parsing is schedule independent", "statement": "The trains of a KSS timetable and the error counts do not depend on the interleaving of the file-parsing workers; successes plus counted failures equal the number of trains in the files.", "quantifier": "all file lists and all worker interleavings", "why_tests_cant": "Thread schedules.", "anchors": ["src/timetable/parsers/kss/parse_kss_timetable.cc: parse_kss_timetable, parse_timetable_file", "include/soro/base/error.h: stats"]}
{"id": "C44", "title": "Running times respect halts", "statement": "In every computed running time, timestamps never go backwards, a train departs from a scheduled halt no earlier than its scheduled departure and never before arrival plus minimum stop time.", "quantifier": "all paths, speeds, halts", "why_tests_cant": "All train paths and physics inputs.", "anchors": ["src/runtime/runtime.cc: runtime_calculation, get_runtime_phases"]}
{"id": "C45", "title": "Speed profile integration terminates at the exact phase distance", "statement": "Accelerating, coasting and braking phases end exactly at the required distance/speed, and recorded distances within a phase never decrease.", "quantifier": "all start speeds, targets, distances and accelerations", "why_tests_cant": "Continuous parameter space.", "anchors": ["src/runtime/runtime_physics.cc"]}
{"id": "C46", "title": "Delay/probability distributions keep their mass on insertion", "statement": "Inserting an entry into a discretised probability distribution adds its probability to the bucket of the rounded value and changes no other bucket; the sum over a distribution is the sum of all probabilities inserted.", "quantifier": "all distributions and insertion sequences", "why_tests_cant": "All insertion orders, in particular values below the current first bucket.", "anchors": ["include/soro/simulation/dpd.h: dpd::insert, round_to_nearest_multiple"]}
{"id": "C47", "title": "Line segment lookup", "statement": "get_segment(km) of a line whose segments are contiguous and ascending returns the segment containing km, the first for smaller km and the last for larger km.", "quantifier": "all segment lists and kilometre values", "why_tests_cant": "All positions and segment counts.", "anchors": ["src/infrastructure/line.cc: line::get_segment"]}
{"id": "C48", "title": "Bounding box contains every station", "statement": "The bounding box of a list of valid coordinates contains each coordinate and is tight.", "quantifier": "all coordinate lists", "why_tests_cant": "All lists.", "anchors": ["include/soro/utls/coordinates/gps.h: get_bounding_box"]}
{"id": "C49", "title": "Element order used for sorting a section is a strict weak order", "statement": "The comparator handed to std::sort for ordering the elements of a section is a strict weak ordering (otherwise std::sort is undefined).", "quantifier": "all triples of elements", "why_tests_cant": "Violations need particular kilometre distances.", "anchors": ["src/infrastructure/parsers/iss/parse_iss.cc: order_impl"]}
{"id": "C50", "title": "Piecewise and polynomial evaluation", "statement": "polynomial evaluation equals the sum of coefficient times power; a piecewise function evaluates the piece whose half-open interval contains the argument, for every argument in the domain.", "quantifier": "all coefficient lists, pieces and arguments", "why_tests_cant": "Continuous argument space.", "anchors": ["include/soro/utls/math/polynomial.h", "include/soro/utls/math/piecewise_function.h"]}
{"id": "C51", "title": "Unit arithmetic is dimensionally sound", "statement": "Multiplying and dividing SI quantities yields the unit whose exponents are the sums/differences of the operands' exponents, whatever the order of the operations.", "quantifier": "all unit expressions", "why_tests_cant": "All nestings of products and quotients.", "anchors": ["include/soro/utls/strong_types/fraction.h"]}
{"id": "C52", "title": "trip_nodes spans exactly the nodes of the trip", "statement": "For every trip of a timetable with distinct train ids, trip_nodes(trip) returns the nodes of that trip in path order, one per interlocking route of its path; asking for a trip that is not in the graph fails.", "quantifier": "all timetables, filters and exclusion families with tie-free times", "why_tests_cant": "All timetables; the index stores ranges while nodes are appended.", "anchors": ["src/simulation/ordering/ordering_graph.cc: trip_nodes"]}
{"id": "C53", "title": "Element type classes partition the element types", "statement": "Every element type other than INVALID belongs to exactly one of: end element, simple element, simple switch, cross, directed track element, undirected track element; track elements are the directed and undirected ones, section elements all others.", "quantifier": "all element types", "why_tests_cant": "The classes are index ranges over an enumeration; the table is what every element visitor relies on.", "anchors": ["include/soro/infrastructure/graph/type.h"]}
{"id": "C54", "title": "Interlocking routes are exactly the signal-to-signal routes", "statement": "The interlocking routes of an infrastructure are exactly the connected node sequences from a main signal (or the edge of the network) to the next main signal (or the edge) over station routes that do not require ETCS; their ids are their positions, none is empty, and none has a main signal strictly inside.", "quantifier": "all station route tables and graphs", "why_tests_cant": "All networks; the search recurses over arbitrarily long signal free chains.", "anchors": ["src/infrastructure/interlocking/get_interlocking.cc: get_interlocking_routes, get_interlocking_routes(sr)"]}
{"id": "C55", "title": "Exclusion elements of a route", "statement": "The closed exclusion elements of an interlocking route are, in ascending order and without repetition, exactly the exclusion elements of the part of its sections it runs through; every exclusion element it visits is among them; the open exclusion elements are the closed ones without the elements at the two ends of the route.", "quantifier": "all infrastructures and interlocking routes", "why_tests_cant": "All section layouts, directions and route shapes.", "anchors": ["src/infrastructure/exclusion/exclusion_elements.cc: get_closed_exclusion_elements, get_open_exclusion_elements", "include/soro/infrastructure/graph/section.h"]}
{"id": "C56", "title": "Clique files are read completely", "statement": "Reading a clique file yields the cliques of its lines, each in ascending order, the cliques in lexicographic order; writing ids in decimal separated by single blanks and reading them again gives the same cliques; any token that is not an id makes reading fail.", "quantifier": "all files", "why_tests_cant": "All files and ids.", "anchors": ["src/infrastructure/exclusion/read_cliques.cc: read_cliques"]}
{"id": "C57", "title": "Only supported trains enter the timetable, whole trains only", "statement": "A construction train is taken over only if its stations and station routes exist, it is not CTC controlled, starts and ends with a halt, does not break in or out and each halt and transit time has a place on its station route; its path is then connected. A train enters the timetable with all its construction trains or is counted under the error of the first one that fails.", "quantifier": "all KSS trains and infrastructures", "why_tests_cant": "All combinations of malformed and unsupported trains.", "anchors": ["src/timetable/parsers/kss/parse_kss_timetable.cc: parse_construction_train, is_supported, parse_sequence, parse_kss_train"]}
{"id": "C58", "title": "Every recorded element gets exactly one timestamp, in order of travel", "statement": "A successful running time calculation returns one timestamp for every element of the train's path whose type is asked for and that is not omitted, in the order of travel, and nothing else; the halt indices are exactly the positions of the halts among them.", "quantifier": "all train paths, event type sets, physics and speed limits", "why_tests_cant": "All interleavings of events, borders, omitted elements and merged borders.", "anchors": ["src/runtime/runtime.cc: runtime_calculation, determine_events", "src/runtime/interval.cc: get_interval_list"]}
{"id": "C59", "title": "Trains keep speed limits", "statement": "On every stretch between two borders the computed driving phases cover exactly its length and never exceed the train's top speed nor the speed limit in force on the stretch; at its end the train is no faster than allowed behind it and stands where it stops. The limits leave room for that: a train that enters a stretch as fast as it may can brake before its end, and no limit is lowered further than this takes.", "quantifier": "all train paths, speed limits and vehicles", "why_tests_cant": "All combinations of limits, braking distances and stretch lengths.", "anchors": ["src/runtime/runtime.cc: get_runtime_phases", "src/runtime/interval.cc: get_interval_list, adjust_speed_limits, insert_last_signal_spl"]}
{"id": "C60", "title": "Times are those of the computed drive", "statement": "Every timestamp of a successful running time calculation follows from the computed driving phases: the train reaches a border when the phases so far and the stops so far have passed, and it passes an element between two borders when the first recorded sample of the phase it lies in is at or behind the element; times are rounded down to seconds.", "quantifier": "all train paths, physics and speed limits", "why_tests_cant": "All distances, phases and positions of elements.", "anchors": ["src/runtime/runtime.cc: get_event_time, determine_events, runtime_calculation"]}
{"id": "C61", "title": "Probability distributions are read back as they were filled", "statement": "Iterating a distribution yields every bucket with a probability, with its value; the distribution of the delay at a halt, and that of arrival and speed, can be built for every arrival and speed and hold for each bucket the sum of the probabilities of the delays and speeds that round to it, at most one in total.", "quantifier": "all distributions, arrivals and speeds", "why_tests_cant": "All values, speeds and insertion sequences.", "anchors": ["include/soro/simulation/dpd.h: dpd::iterate, begin, end", "include/soro/simulation/disruption.h: get_halt_distribution, get_runtime_distribution"]}
{"id": "C62", "title": "Lines are imported with all segments and attributes", "statement": "Importing regulatory files yields one line for every line number in them: the first one of that number, with all its segments in the order of the file and the attributes signalling, LZB and ETCS that belong to the type of each segment; the import fails exactly if the type of a segment is unknown.", "quantifier": "all lists of regulatory files", "why_tests_cant": "All files, line numbers and segment types.", "anchors": ["src/infrastructure/regulatory_data.cc: parse_lines, parse_lines_from_file"]}
{"id": "C63", "title": "Trains drive over the imported network as the plan is drawn", "statement": "After importing a track plan, following the links of the network a train meets exactly the elements drawn on each section in the order of its direction; at the end of a section it reaches the device drawn there, goes straight on into the section attached to the opposite part of the device, can diverge exactly where the plan has a diverging track or slip, crosses a station border into the section of the neighbouring station, and stops at bumpers, ends of track and borders to stations that are not in the plan.", "quantifier": "all track plans: any number of stations, sections, devices and elements", "why_tests_cant": "All plans, devices, orientations and combinations of lines.", "anchors": ["src/infrastructure/parsers/iss/parse_iss.cc: parse_section, complete_borders, parse_iss", "src/infrastructure/graph/graph_creation.cc: create_element, set_neighbour, insert_meta, connect_nodes, get_node"]}
{"id": "C64", "title": "Sections hold their elements in driving order", "statement": "After importing a consistently drawn track plan there is one section per section of the plan, with its line and the distance of its ends as length, and one section without length per pair of borders of neighbouring stations; a section holds the device at its start, its elements and the device at its end, each exactly once, and the elements a train meets in a direction are held in the order it meets them; every element knows exactly the sections it is in.", "quantifier": "all track plans that are consistently drawn as C63 requires (ids unique, devices complete, elements a centimetre apart, lines keeping their direction, jumps and borders oriented): any number of stations, sections, devices and elements", "why_tests_cant": "All plans, kilometrages and combinations of element types.", "anchors": ["src/infrastructure/parsers/iss/parse_iss.cc: parse_section, complete_borders", "include/soro/infrastructure/graph/section.h: section"]}
{"id": "C65", "title": "Station routes follow their course", "statement": "Importing a plan yields one station route for every route of the plan that is not only published, in the order of the plan. Its path is the drive from its first to its last node: straight on everywhere except at diverging tracks, where the entry of the course for that switch or crossing tells whether it goes straight or diverges; it stops at the first visit of the last node. A route that cannot be driven like that is rejected.", "quantifier": "all plans, routes and courses", "why_tests_cant": "All networks, courses, cycles and dead ends.", "anchors": ["src/infrastructure/parsers/iss/parse_iss.cc: get_path, get_node, get_station_route_paths", "src/infrastructure/parsers/iss/parse_station_route.cc: parse_station_route", "src/infrastructure/graph/element.cc: is_switch"]}
{"id": "C66", "title": "Station routes over the same way share one path", "statement": "Two station routes of a plan share one path object exactly if they have the same start and end, the same decisions in their courses and the same omitted main signals; routes with a shared path have the same nodes, main signals and ETCS markers.", "quantifier": "all plans and pairs of routes", "why_tests_cant": "All pairs of routes in all orders.", "anchors": ["src/infrastructure/parsers/iss/parse_iss.cc: same_path, get_omitted_relevant_rp_nodes, get_station_route_paths"]}
{"id": "C67", "title": "Station routes hold what lies on them", "statement": "Every imported station route has the name, station and attributes of the plan; lists ascending exactly the positions of the main signals on its path that the plan does not omit, of the ETCS starts and ends and of the omitted nodes; its checkpoint and halts are the last visits of the nodes the plan names, or absent; it holds every speed limit of the plan (other than warning signs) once, at its element, in the order of the path; its neighbouring stations are those of the elements behind its last and before its first node. No two routes of a station share a name.", "quantifier": "all plans and routes", "why_tests_cant": "All paths, omitted nodes, limits and duplicates.", "anchors": ["src/infrastructure/parsers/iss/parse_iss.cc: get_main_signals, get_etcs, calculate_station_routes", "src/infrastructure/parsers/iss/parse_station_route.cc: parse_station_route", "include/soro/infrastructure/parsers/iss/iss_string_literals.h: attribute_index"]}
{"id": "C68", "title": "Successors of station routes lie in the next station", "statement": "The successors of a station route are exactly the routes of the next station that start at the element behind its last node, each once and ordered by name; routes that end inside their station after entering it, and routes that end at a track end, have none. A route is a predecessor of another one exactly if the other one is its successor.", "quantifier": "all plans and pairs of routes", "why_tests_cant": "All pairs of routes in all stations.", "anchors": ["src/infrastructure/station/station_route_graph.cc: get_successors, get_station_route_graph", "src/infrastructure/station/station_route.cc: is_through_route, is_in_route"]}
{"id": "C69", "title": "Driving backwards", "statement": "The reverse edges of a node are exactly the nodes from which a train gets to it straight or diverging. The node straight behind a node is absent exactly if no node leads to it; otherwise it leads to it, at a switch with several ways in it is not behind the branch, elsewhere it leads straight to it; it is only missing if no node leads straight to it other than over the branch of a switch.", "quantifier": "all networks and nodes", "why_tests_cant": "All networks, switches and crossings.", "anchors": ["src/infrastructure/graph/graph_creation.cc: create_graph (reverse edges)", "src/infrastructure/graph/element.cc: reverse_ahead, default_reverse_ahead", "src/infrastructure/graph/node.cc: reverse_ahead"]}
{"id": "C70", "title": "A route drawn in the plan is imported as drawn", "statement": "If the start, the end and the course of a station route describe a way over the sections of a consistently drawn plan, from any device or element to the first visit of any other, the nodes of the imported route are exactly the elements a train meets on that way, from the start to the end: the elements of every section in its direction and the device at its end, over straight or diverging tracks as the course says. Every such way between borders, ends of tracks and directed elements is found; a plan with a route from or to anything else is not imported.", "quantifier": "all track plans that are consistently drawn as C63 requires (ids unique, devices complete, elements a centimetre apart, lines keeping their direction, jumps and borders oriented), all routes, ways over any number of sections", "why_tests_cant": "All plans, ways and courses.", "anchors": ["src/infrastructure/parsers/iss/parse_iss.cc: get_path, get_node, get_station_route_paths, parse_section, parse_iss", "src/infrastructure/graph/graph_creation.cc: connect_nodes"]}
{"id": "C71", "title": "A route is as long as it is drawn", "statement": "The length of an imported station route is the distance between its start and its end along the way it is drawn: the differences of the kilometrages on every section it runs over, where a device has the kilometrage of each section it is drawn on and elements lie between the ends of their section.", "quantifier": "all track plans that are consistently drawn as C63 requires, all routes and ways as in C70, over any number of sections", "why_tests_cant": "All plans, kilometrages and element combinations, sections without elements included.", "anchors": ["include/soro/infrastructure/path/length.h: get_path_length_from_elements", "src/infrastructure/graph/element.cc: get_km", "src/infrastructure/graph/graph_creation.cc: insert_meta", "src/infrastructure/parsers/iss/parse_iss.cc: calculate_station_routes"]}
{"id": "C72", "title": "A train passes the nodes of its path once, from its departure to its arrival", "statement": "Iterating a train yields, without gaps, the nodes of the interlocking routes of its path, the node two consecutive routes share only once: from its first halt (or the start of the first route if it breaks in) to its last halt (or the end of the last route if it breaks out). Each node carries the sequence point measured there: sequence points are reported in order, each at its node, and all of them if their nodes occur in this order. A node is passed over if its route omits it or if it is a halt without a reported sequence point.", "quantifier": "all trains, paths of any number of routes and sequence points", "why_tests_cant": "All combinations of routes over one or several station routes, halts at shared signals, routes of a single node.", "anchors": ["src/timetable/train.cc: iterate_train, train::iterate", "src/timetable/sequence_point.cc: get_node_idx, get_node", "src/infrastructure/interlocking/interlocking_route.cc: from, from_to, iterate"]}
{"id": "C73", "title": "The interlocking of a loaded infrastructure consists of exactly the ways between signals", "statement": "After loading an infrastructure, the interlocking routes are exactly the sequences of consecutive station route nodes that run from one (not omitted) main signal to the next, or from where the network begins, or to where it ends, over station routes usable without ETCS; on a properly drawn plan a train following one of them always finds track ahead; and the tables of the interlocking (routes starting, ending, halting at a node, using a station route, passing a station) list exactly the routes they are named after. Loading succeeds exactly if there is at least one such way.", "quantifier": "all plans, station routes and line files for which loading succeeds", "why_tests_cant": "the networks, routes and signals of a plan are unbounded; a test loads one infrastructure and compares a handful of routes", "anchors": ["src/infrastructure/parsers/iss/parse_iss.cc (parse_iss)", "src/infrastructure/interlocking/get_interlocking.cc (get_interlocking, get_interlocking_routes, print_interlocking_stats)", "src/infrastructure/station/station_route.cc (requires_etcs)", "include/soro/infrastructure/interlocking/interlocking.h"]}
{"id": "C74", "title": "Numbers in texts, with decimal point or comma", "statement": "parse_fp accepts exactly the texts that are one number in decimal notation (optional minus, digits, at most one decimal point, optional exponent, nothing before or after), and a decimal comma exactly if the caller asked for commas to be replaced. The value returned is the value the text denotes. Every other text is rejected. Asking for commas never changes the value of a text without comma.", "quantifier": "all texts of any length and both settings of the comma replacement", "why_tests_cant": "the set of texts is infinite; wrong handling of signs, missing integer or fraction digits, exponents or trailing characters shows only on particular spellings", "anchors": ["include/soro/utls/parse_fp.h: parse_fp, detail::parse_fp, contains_char"]}
{"id": "C75", "title": "The imported rolling stock is what the core data says", "statement": "After importing any sequence of core data files, looking up a series, an owner and a variant number yields a vehicle exactly if a variant with that number is listed for that series with a gap-free table of tractive forces; the vehicle has the name, the weight and the top speed of the listed variant, pulls at every speed with the force its table gives for that speed (converted from kN and km/h) and resists with the force the resistance factors give. The import succeeds exactly if all texts it reads are readable and no two series share their key, and throws otherwise. The default values are those of the last file that has any.", "quantifier": "all sequences of core data files with any number of series, variants and table lines, all lookups, all speeds", "why_tests_cant": "it is about all files and all speeds; key collisions, duplicate or oversized variant numbers and gaps in tables are rare in test data", "anchors": ["src/rolling_stock/parse_train_series.cc: parse_train_series, parse_variants, get_tractive_force_curve, get_running_resistance_curve", "src/rolling_stock/rolling_stock.cc: get_traction_vehicle", "include/soro/rolling_stock/train_series.h: get_key", "src/infrastructure/parsers/iss/parse_iss.cc: parse_core_data, parse_default_values"]}
{"id": "C76", "title": "The physics of a timetable's train is that of its units", "statement": "A train of a timetable is accepted exactly if every one of its traction units is a variant of the imported rolling stock and its length, weight and speed are numbers. Its tractive and resistive force at any speed are the sums of what the data sheets of its units give at that speed, its top speed is the least of its own and those of its units, and it counts as freight train and as train under continuous control exactly if the timetable says so. It is reported as not found exactly if there is a first unit that is not in the rolling stock.", "quantifier": "all imported core data, all trains with any number of units, all speeds", "why_tests_cant": "sums over any number of units at every speed; the failure cases depend on which unit is the first unknown one", "anchors": ["src/timetable/parsers/kss/parse_kss_timetable.cc: parse_characteristic", "src/rolling_stock/train_physics.cc: train_physics", "src/rolling_stock/rolling_stock.cc: get_traction_vehicle"]}
{"id": "C77", "title": "The layout draws every station as the plan does", "statement": "In the layout of a plan two elements of one station lie apart from each other exactly as the plan draws them: ends, switches and other nodes at the coordinates written in the plan, the elements on the track of a section evenly on the straight line between the two ends of the section. In every station the smallest x and the smallest y are zero. A plan whose coordinates are readable and name known elements always has a layout with one place per element.", "quantifier": "all plans with any number of nodes, sections and stations, all pairs of elements of a station", "why_tests_cant": "it is about all plans; a swapped coordinate or a shift by the wrong corner shows only for particular drawings", "anchors": ["src/infrastructure/layout/layout.cc: get_layout, calculate_track_element_coords, adjust_coordinates"]}
{"id": "C78", "title": "The places of the stations are those of the coordinate file", "statement": "After reading the coordinate file every station has the place given in the last row naming it, with longitude and latitude from their own columns and decimal commas or points; a station no row names has no valid place. Rows naming unknown stations are ignored whatever they contain. The file is accepted if the numbers of all rows of known stations are readable. Without the file the stations still get places.", "quantifier": "all files with any number of rows, all sets of stations", "why_tests_cant": "rows may repeat stations, name unknown ones or lack values in any combination", "anchors": ["src/infrastructure/parsers/parse_station_coords.cc: parse_station_coords"]}
{"id": "C79", "title": "Stations without coordinates are placed between their neighbours", "statement": "A station with a valid place in the coordinate file keeps it. Any other station is placed at the mean of the nearest stations with known places that are reached through stations without, weighted by the number of borders to neighbours and by how near they are, so it lies within the rectangle these stations span; with one such station it is placed left of it by a tenth of a degree per step, with none at a fixed place. The result does not depend on the addresses of the station objects, and every station ends up with a valid place.", "quantifier": "all networks of stations, all subsets of them with known places, all orders of addresses", "why_tests_cant": "it is a property of all graphs and all subsets of their nodes; pointer orders change from run to run", "anchors": ["src/infrastructure/layout/layout_to_gps.cc: interpolate_coordinates, get_neighbours_with_coords, interpolate_coordinates of one station", "src/infrastructure/station/station.cc: get_neighbours"]}
{"id": "C80", "title": "Distances and coordinates on the globe", "statement": "The distance between two places is the length of the shortest way between them on a sphere with the radius of the earth: it is symmetric, never negative, zero exactly for equal places, and satisfies the triangle inequality. Converting a place of the map to space and back yields the place. Places with equal position on the globe have distance zero.", "quantifier": "all pairs and triples of places, including the poles and the date line", "why_tests_cant": "it is about all real coordinates; errors in the formulas cancel near the few places tests use", "anchors": ["src/utls/coordinates/gps.cc: gps::distance, gps::to_cartesian", "src/utls/coordinates/cartesian.cc: cartesian::to_gps", "include/soro/utls/coordinates/angle.h: to_rad, to_deg"]}
{"id": "C81", "title": "Moving and turning places", "statement": "Moving a place by a distance in a direction follows the great circle in that direction: the new place has this distance and is seen in this direction; going the distance to another place in its direction arrives there. Turning a place around an anchor keeps its distance from the anchor, changes the direction by the angle, turning by zero changes nothing and turns add up.", "quantifier": "all places between the poles, all distances up to half the circumference, all directions and angles", "why_tests_cant": "it is about all real coordinates and angles, including the quadrants of the arc tangent", "anchors": ["src/utls/coordinates/gps.cc: gps::move, gps::bearing", "src/infrastructure/layout/layout_to_gps.cc: rotate_point_around_by"]}
{"id": "C82", "title": "The map shows every station as the plan draws it", "statement": "On the map every element lies at ten metres per unit of the plan from the place of its station, measured from the middle of the drawing, and all elements of a station are turned by the same angle, so the picture is the drawing, not mirrored or distorted. The angle is the multiple of five degrees that brings the ends of the borders to the neighbours closest together. Every network of known elements and stations gets a map.", "quantifier": "all layouts, stations, borders and places of stations", "why_tests_cant": "it is about all drawings and positions; a mirrored or distorted picture looks plausible", "anchors": ["src/infrastructure/layout/layout_to_gps.cc: layout_to_gps, get_element_gps_coords, get_best_rotation, get_best_rotations, rotate_elements", "include/soro/utls/coordinates/polar.h: polar"]}
{"id": "C83", "title": "The exported map shows every element and station once", "statement": "The exported map starts with one node for every element and one for every station, in the order of their ids, at their places and with their type, name and direction; all other nodes are points of curves. Nodes are numbered without gaps, ways after them, and ways only name nodes of the map. The result does not depend on the number of threads that write it.", "quantifier": "all infrastructures whose elements are each in one station, all numbers of threads", "why_tests_cant": "it is about all infrastructures and all ways to split the work; an off-by-one in the split shows only for some sizes and machines", "anchors": ["web/server/src/modules/tiles/osm_export/osm_export.cc: export_to_osm, export_osm_nodes, create_station_osm, create_element_osm"]}
{"id": "C84", "title": "The exported map connects neighbouring elements exactly once", "statement": "In the exported map two neighbouring elements of the same station are connected by exactly one way, two neighbouring elements of different stations by exactly one chain of ways over fifty points of its own; there are no other ways.", "quantifier": "all infrastructures whose elements are each in one station, all orders of stations and elements", "why_tests_cant": "it is about all neighbourhoods, including those noted on one side only or twice", "anchors": ["web/server/src/modules/tiles/osm_export/osm_export.cc: create_ways, create_interpolation_osm, create_way_osm, export_to_osm"]}
{"id": "C85", "title": "The tracks between stations are drawn as smooth curves", "statement": "Between two neighbouring elements of different stations the exported map draws fifty points of the cubic curve given by their places and two control points, which continue the tracks that end there straight on. The curve stays in every rectangle of the map that contains the four points.", "quantifier": "all infrastructures, all places, all pairs of neighbouring elements of different stations", "why_tests_cant": "it is about all real coordinates", "anchors": ["web/server/src/modules/tiles/osm_export/interpolation.cc: compute_interpolation, get_auxiliary_point, get_bezier_curve", "include/soro/base/fp_precision.h: equal"]}
{"id": "C86", "title": "A restarted web server serves the infrastructures as they are now", "statement": "Whatever happened before, a web server that starts serves exactly the infrastructures whose source directories are there, each under the name of its directory and as its source is now.", "quantifier": "all histories of source changes and server starts (with or without regeneration, with or without serialization), all crash points", "why_tests_cant": "it depends on the whole history of the files and their times of last writing", "anchors": ["web/server/src/modules/infrastructure/infrastructure_module.cc: get_infrastructure_todo_list, get_infrastructure_module, get_infra", "include/soro/utls/serializable.h: serializable", "web/server/src/soro_server.cc: soro_server"]}
{"id": "C87", "title": "A restarted web server serves the timetables as they are now", "statement": "A web server serves a timetable for an infrastructure exactly when its source directory is there and fits the infrastructure, and then as its source is now; this is so for the first start and for every later one.", "quantifier": "all files, all times of last writing, all settings", "why_tests_cant": "it is about restarts on files kept by earlier runs", "anchors": ["web/server/src/modules/timetable/timetable_module.cc: get_timetable_todo_list, get_timetable_module, get_timetable", "src/timetable/timetable.cc: try_parsing_timetable, get_source_type"]}
{"id": "C88", "title": "The served map is the map of the served infrastructure", "statement": "The tiles a web server serves under the name of an infrastructure are drawn from that infrastructure as it is served, also after a restart and after the infrastructure was changed.", "quantifier": "all histories of source changes and server starts, all names of infrastructures", "why_tests_cant": "it is about files derived from files over several runs", "anchors": ["web/server/src/modules/tiles/tiles_module.cc: create_osm_file, create_tiles_db, get_tile_module, serve_tile"]}
{"id": "C89", "title": "Search results are true", "statement": "A search in an infrastructure the web server does not have is answered with not found and a query of less than three characters is rejected. Every other query is answered, in the order of the guesser; every result is a station, element, station route or interlocking route of that infrastructure with the number shown, has the name shown, is shown with its element type, and its box is the smallest one around it.", "quantifier": "all lists of infrastructures with distinct names, all queries, all guessers that deliver places of the indexed list", "why_tests_cant": "the index is built from every station, element and route of an arbitrary infrastructure", "anchors": ["web/server/src/modules/search/search_module.cc: get_search_context, get_search_module", "web/server/src/modules/search/serve_search.cc: serve_search"]}
{"id": "C90", "title": "Everything can be found under its names", "statement": "Every station is found under its DS100 code and its full name, every element under its number, every main signal, simple switch and halt under its name, every halt under its two identifiers, every station route under its name and every interlocking route under its number. Numbers are written with at least three digits so that they can be searched.", "quantifier": "all infrastructures, all things in them and all their names, all guessers that find a text that is in the list", "why_tests_cant": "it is about completeness of an index over arbitrary infrastructures", "anchors": ["web/server/src/modules/search/search_module.cc: get_search_context, left_pad_to_3_digits", "web/server/src/modules/search/serve_search.cc: serve_search"]}
{"id": "C91", "title": "Requests by number are answered with the thing of that number", "statement": "A request for a station, station route, interlocking route, element or exclusion set is answered with what the infrastructure knows of the one with that number, and with not found if there is none or the infrastructure is unknown. What a search finds can be requested by the number of the result.", "quantifier": "all infrastructures in good order, all numbers written in digits", "why_tests_cant": "numbers in a request are arbitrary, also those no test of existing things asks for", "anchors": ["web/server/src/modules/infrastructure/serve_station.cc", "web/server/src/modules/infrastructure/serve_station_route.cc", "web/server/src/modules/infrastructure/serve_interlocking_route.cc", "web/server/src/modules/infrastructure/serve_element.cc", "web/server/src/modules/infrastructure/serve_exclusion_set.cc", "web/server/src/modules/infrastructure/serve_station_names.cc", "web/server/src/modules/infrastructure/serve_bounding_box.cc"]}
{"id": "C92", "title": "The ordering graph shown is that of the trips asked for", "statement": "A request for the ordering graph of a timetable is answered with not found for an unknown infrastructure or timetable and rejected if its parameters do not say an interval and a list of train numbers. Otherwise the answer shows exactly the trips of the requested trains under way in the interval, ordered by departure, with one node for every route on their paths. Usages that follow each other on a trip and usages of routes that exclude each other are connected from the earlier to the later one, nothing else is connected, and no edge is a short cut or shown twice.", "quantifier": "all timetables and exclusion sets, all intervals and lists of trains, all sorting functions", "why_tests_cant": "timetable, interval and choice of trains are arbitrary, and the graph connects any two of all their usages", "anchors": ["web/server/src/modules/ordering/serve_ordering_graph.cc: serve_ordering_graph, serialize_ordering_graph, params_to_filter, comma_values_to_train_ids", "src/simulation/ordering/ordering_graph.cc: ordering_graph"]}
{"id": "C93", "title": "Iterating a generator that yields generators is running its program", "statement": "A loop over a generator of nodes delivers the values in the order of the program, with those of a yielded generator in its place at any depth of nesting, does nothing before it is asked for the next value, ends when the program ends and passes on its exception. Leaving the loop at any value and destroying the generator destroys every coroutine still suspended, and no coroutine is used after its destruction or resumed after its end.", "quantifier": "all programs of actions, yields, yielded generators, exceptions and handlers, nested to any depth, and all numbers of values read", "why_tests_cant": "nesting, the places of failures and the point at which a loop is left are arbitrary", "anchors": ["include/soro/utls/coroutine/recursive_generator.h: recursive_generator, promise_type::yield_value, pull, throw_if_exception, iterator, begin"]}
{"id": "C94", "title": "Mapping a function over a generator and collecting gives the function of every value", "statement": "Collecting the values of a generator through a function gives the function of every value in order, reads the generator exactly as a loop does and leaves no coroutine behind; if the generator fails, so does the collection.", "quantifier": "all functions, all programs of generators and all numbers of values read", "why_tests_cant": "generators and functions are arbitrary", "anchors": ["include/soro/utls/coroutine/coro_map.h: coro_map", "include/soro/utls/coroutine/generator.h: generator, generator_promise", "include/soro/utls/coroutine/collect.h: collect"]}
{"id": "C95", "title": "The statistics of a plan agree with the network loaded from it", "statement": "The statistics computed from the infrastructure files without loading them state, for every type of element, the number of elements of that type in the loaded network, their total number without the elements added to empty tracks, the number of stations and the number of sections. Exactly one element is added for every track and direction on which nothing stands.", "quantifier": "all plans whose devices, ids and borders are drawn consistently, of any size", "why_tests_cant": "plans are arbitrary; the unit test compares a handful of data sets", "anchors": ["src/infrastructure/parsers/iss/get_infra_stats.cc: get_infra_stats", "include/soro/infrastructure/infra_stats.h: infra_stats", "src/infrastructure/parsers/iss/parse_iss.cc: parse_iss"]}
{"id": "C96", "title": "The exported exclusion graph lists every conflict of two routes once", "statement": "The file the export tool writes for a network has one line for every interlocking route, in the order of the routes. The line of a route names, in decimal, ascending and each followed by a blank, exactly the routes with a smaller number that are in conflict with it. So every conflict of two different routes is written exactly once, and the file determines which routes are in conflict.", "quantifier": "all networks, numbers of threads and schedules", "why_tests_cant": "networks and the interleavings of the threads that compute the graph are unbounded; the tool has no test", "anchors": ["tools/export_exclusion_graph/src/export_exclusion_graph.cc: write_out", "src/infrastructure/exclusion/get_exclusion_graph.cc: get_exclusion_graph", "include/soro/infrastructure/exclusion/exclusion_graph.h: exclusion_graph"]}
{"id": "C97", "title": "Generated maps are sorted and free of duplicates", "statement": "Cleaning OSM data whose ids are numbers leaves, among nodes, ways and relations alike, the entries in ascending order of their ids and of the entries with one id exactly the first. Whatever the ids are, it ends, adds nothing, and leaves no id twice; doing it again changes nothing.", "quantifier": "all OSM data: any number of nodes, ways and relations in any order, with any repetition", "why_tests_cant": "the search that decides whether an id is new compares with the wrong element and only works because the ids arrive in order; whether it always does depends on the whole history of the list", "anchors": ["tools/generate-osm/osm-utils/sort-osm.go:SortAndRemoveDuplicatesOsm", "tools/generate-osm/osm-utils/sort-osm.go:search"]}
{"id": "C98", "title": "A new node is spliced into every way through its reference node", "statement": "Inserting a node next to a reference node appends it to the nodes and puts it directly next to the first occurrence of the reference node in every way that passes there, behind it unless the reference node is the last of the way. Other ways, tags and relations stay; no way loses a node or changes the order of its nodes, and ways with at least two nodes keep their ends.", "quantifier": "all OSM data, new nodes and reference nodes", "why_tests_cant": "ways are slices that are spliced in place; a test sees some positions, not every length and position", "anchors": ["tools/generate-osm/osm-utils/osm-toolbox.go:InsertNewNodeWithReferenceNode", "tools/generate-osm/osm-utils/osm-toolbox.go:GetNodeIndexInWay"]}
{"id": "C99", "title": "Stations of the generated map are replaced by the curated ones", "statement": "Before the curated stations are added, every station and halt is removed from the map and nothing else, so that the output shows each of them once and marked as a station.", "quantifier": "all node lists, with stations and halts at any places", "why_tests_cant": "the nodes are removed while the list is being walked; what happens depends on which nodes are neighbours in the list and on what stands at its end", "anchors": ["tools/generate-osm/main.go:generateOsm"]}
{"id": "C100", "title": "Stations and lines of the generated map", "statement": "The list of stations holds exactly the named stations and halts of the file, each id once with the name and position of its last entry; the nodes given out are those with a railway tag and a name, in their order, with stations and halts marked. The lines are four-character numbers found in ref tags of the relations, and all of them if no other four-character value is among them. Combining the files of the lines keeps every entry and adds one colour to each way.", "quantifier": "all OSM files: any tags in any order, repeated ids, any relations", "why_tests_cant": "tags are free text and ids may repeat: the cases are too many to list", "anchors": ["tools/generate-osm/osm-utils/generate-stations.go:generateOsmAndSearchFile", "tools/generate-osm/osm-utils/get-refs.go:getRefIds", "tools/generate-osm/combine-lines/combine-lines.go:CombineAllLines"]}
{"id": "C101", "title": "Additional OSM data are completed without losing any", "statement": "Adding the mapped data to an additional OSM file keeps its nodes, relations and the courses of its ways, and adds, each once, the nodes of the mapped ways it shares up to the highest new id; it fails only if such a node is missing. The ways of the output pass the new nodes, and a file whose name ends in .xml is accepted.", "quantifier": "all pairs of OSM data sets, highest ids and orders in which the nodes are taken", "why_tests_cant": "the nodes are taken in the arbitrary order of a hash map, and the claim ranges over all file names and data", "anchors": ["tools/generate-osm/main.go:insertOsm"]}
{"id": "C102", "title": "Following a track", "statement": "Following the track from a node of a way leads over neighbouring nodes in the direction asked for, adds up their distances and stops at the first node at which the distance is reached; before that it stops only where the track ends or forks, and says so. Where ways meet it goes on to the other way and never turns round. It does not crash on complete data and, if neighbouring nodes are a minimal distance apart, it comes to an end.", "quantifier": "all networks of ways in any order and orientation, all starting points, distances and both directions", "why_tests_cant": "ways may meet in four orientations and form rings; the claim is about every network and walks of any length", "anchors": ["tools/generate-osm/db-utils/find-nodes/go-direction.go:goDirection", "tools/generate-osm/db-utils/find-nodes/find-next-way.go:findNextWay", "tools/generate-osm/db-utils/find-nodes/find-nodes-toolbox.go:FindNextRunningNode"]}
{"id": "C103", "title": "The node at given distances from two others", "statement": "From a node of the track the search goes in both directions of one straight line. The node at two distances from two nodes is an end of both searches if there is one, and otherwise, of the two ends closest to each other, the one whose distance fits better; it fails only for a node at which the track does not go on, and names it.", "quantifier": "all networks, pairs of nodes and distances", "why_tests_cant": "the claim compares all ends of walks of any length; tests check a few constellations", "anchors": ["tools/generate-osm/db-utils/find-nodes/find-nodes.go:findNodes", "tools/generate-osm/db-utils/find-nodes/find-new-node.go:findNewNode", "tools/generate-osm/db-utils/find-nodes/find-closest-match.go:findClosestMatch"]}
{"id": "C104", "title": "The best node for a kilometrage", "statement": "The node for a kilometrage is that of an anchor at this very kilometrage, or else the one found from the two nearest anchors that can be used, in whatever order the map of anchors is walked. The search gives up only if fewer than two anchors can be used, and needs two anchors at least.", "quantifier": "all networks, sets of anchors in any order, and kilometrages", "why_tests_cant": "anchors come from a hash map in arbitrary order and any subset of them may be unusable", "anchors": ["tools/generate-osm/db-utils/find-nodes/find-best-osm-node.go:FindBestOSMNode", "tools/generate-osm/db-utils/find-nodes/find-nodes-toolbox.go:SortAnchors"]}
{"id": "C105", "title": "Cutting the data into lines", "statement": "Cutting the infrastructure data into one file for each requested line loses and mixes up nothing: the file of a line has exactly the stations with sections of this line, in the order of the data, each with its sections of the line in their order, and a line without any gets no file.", "quantifier": "all sets of lines, all data with any number of stations and sections in any order", "why_tests_cant": "stations of many lines are interleaved and the program keeps a position for each line; the claim is about every interleaving", "anchors": ["tools/generate-osm/db-utils/db-parser.go:Parse"]}
{"id": "C106", "title": "Placing elements on the track", "statement": "Every element of a line that is not identified by its name is tried once at its kilometrage: either one new node is put next to the node found for that kilometrage, at the same place, on the same ways, with the tags of the element and a fresh id, or the element is reported as not found. Halts and signals placed are entered in the lists under the id of their node. Ways only grow between their ends, other nodes and relations stay as they are.", "quantifier": "all networks, anchors in any order, elements of all kinds in any number, and orders of the maps walked", "why_tests_cant": "every node put in changes the network the next search runs in; the claim is about sequences of any length", "anchors": ["tools/generate-osm/db-utils/db-mapper.go:MapDB", "tools/generate-osm/db-utils/mapper/map-halts.go:MapHalts", "tools/generate-osm/db-utils/mapper/map-misc.go:MapSimpleElement", "tools/generate-osm/db-utils/mapper/map-signals.go:MapUnanchoredMainSignals", "tools/generate-osm/db-utils/mapper/node-creation.go:createNamedDirectionalNode"]}
{"id": "C107", "title": "Placing elements keeps the network fit for searches", "statement": "A network in which ways are simple, share no piece of track and meet at their ends only is still such a network after elements were placed, so that later searches work on it.", "quantifier": "all networks and sequences of elements", "why_tests_cant": "the property is an invariant over insertions of any number", "anchors": ["tools/generate-osm/osm-utils/osm-toolbox.go:InsertNewNodeWithReferenceNode", "tools/generate-osm/db-utils/mapper/map-misc.go:MapSimpleElement"]}
{"id": "C108", "title": "Identifying main signals", "statement": "A main signal is anchored exactly if the map has one signal of this name and no place gets two kilometrages; then there is a new node with the tags and direction of the signal at the place of the one on the map. All others are reported in their direction, none is lost, the number of anchors is right, nodes of the map are left as they are and the program does not crash.", "quantifier": "all lines of any length, all maps, and all orders in which the map of anchors is walked", "why_tests_cant": "conflicts undo earlier anchors, and the order of the hash map decides which; the claim is about every order and history", "anchors": ["tools/generate-osm/db-utils/mapper/map-signals.go:FindAndMapAnchorMainSignals", "tools/generate-osm/db-utils/mapper/map-signals.go:processHauptsignal", "tools/generate-osm/db-utils/mapper/map-signals.go:insertNewHauptsignal"]}
{"id": "C109", "title": "Identifying switches", "statement": "A switch with a node of its name on the map is anchored there at its kilometrage and gets a node of its own beside it, and its other ends are anchored as well; all other switches are reported, and earlier anchors stay.", "quantifier": "all nodes of the track plan, all maps and earlier anchors", "why_tests_cant": "the claim is about switches in any number, at places with and without anchors", "anchors": ["tools/generate-osm/db-utils/mapper/map-switches.go:FindAndMapAnchorSwitches"]}
{"id": "C110", "title": "The later of two random times", "statement": "Combining two distributions of times gives the distribution of the later one: for every moment the probability of not being later is the product of the two probabilities, and combining with an empty distribution gives an empty one.", "quantifier": "all distributions made by any number of insertions of times from 0 to 2^56 seconds, all moments", "why_tests_cant": "the sum over all pairs of buckets has to come out right for every pair of distributions and every moment", "anchors": ["src/simulation/sim_graph.cc:fold_max", "include/soro/simulation/dpd.h:insert"]}
{"id": "C111", "title": "Simulation graph", "statement": "The simulation graph has the nodes of each train chained in their order, nodes of other trains are reached over order edges only, a path is reported exactly where there is one, work starts with exactly the unfinished nodes that wait for finished nodes only, and the simulation returns a result for every node.", "quantifier": "all timetables, all graphs with order edges, all states of the results", "why_tests_cant": "reachability is about paths of any length, the work list about every state of the results", "anchors": ["src/simulation/sim_graph.cc:sim_graph", "src/simulation/sim_graph.cc:path_exists", "src/simulation/sim_graph.cc:ready", "src/simulation/sim_graph.cc:simulate"]}
{"id": "C112", "title": "Checked conversions of integers", "statement": "Converting an integer to another integral type with the checked conversion gives the same value, and fails exactly if the new type does not have this value, for signed and unsigned types of every size, whatever the comparisons convert in between. Without checks a value of the new type comes out, the same one if possible.", "quantifier": "all pairs of integral types, all values", "why_tests_cant": "comparisons of signed and unsigned numbers convert silently; the claim is about every pair of types and every value", "anchors": ["include/soro/utls/narrow.h:narrow", "include/soro/utls/narrow.h:fits", "include/soro/utls/narrow.h:is_narrowing"]}
{"id": "C113", "title": "Files of an infrastructure", "statement": "Given a directory with an index, or the index, exactly the files it names are loaded, each in the category its name begins with and in the order of the index; other files are ignored. Paths that do not exist, archives, directories without an index and indices naming a missing file are refused.", "quantifier": "all file systems, all indices with any number of names in any order", "why_tests_cant": "the claim is about every list of names and every state of the file system", "anchors": ["src/infrastructure/parsers/iss/iss_files.cc:get_iss_files", "src/infrastructure/parsers/iss/iss_files.cc:add_iss_file"]}
{"id": "C114", "title": "Checks before the server starts", "statement": "The server starts only if its resources and both source directories are there; otherwise the program ends with code 1 before it has written anything. The help option ends it with code 0.", "quantifier": "all file systems and settings", "why_tests_cant": "the claim is about every state of the file system", "anchors": ["web/server/src/main.cc:main"]}
{"id": "C115", "title": "An imported train drives along the tracks of the rail plan", "statement": "For a well drawn rail plan whose routes start and end in their own station: the nodes that are iterated over for a train whose sequence of station routes was imported are joined one to the next by the drawn tracks, without a gap, from the place where the train departs to the place where it arrives. A train that does not enter from outside departs at the element that the plan names as the halt of its first stop, one that does not leave arrives at the element named for its last stop. Every sequence point is measured, and shown, at the halt or runtime checkpoint that the plan names for it, and that element lies on a route of the train.", "quantifier": "all well drawn rail plans, lines and sequences of station routes that are imported, passenger and freight trains", "why_tests_cant": "whether consecutive nodes of a journey are neighbours depends on four stages (drawing, station routes, interlocking routes, path search); a test sees a few journeys on one plan", "anchors": ["src/timetable/train.cc: train::iterate", "src/timetable/parsers/station_route_to_interlocking_route.cc: transform_to_interlocking", "src/infrastructure/parsers/iss/parse_iss.cc: parse_iss"]}
{"id": "C116", "title": "The client offers what belongs to the chosen infrastructure", "statement": "In the web client the infrastructure last chosen is the one in use. Once no request is pending, the timetables offered are those of the chosen infrastructure, and the time range is the one of the chosen timetable unless the user changed it.", "quantifier": "all histories of user actions and answers of the server, in every order in which answers can arrive or fail", "why_tests_cant": "The answers of the server can interleave with the actions of the user in unboundedly many ways.", "anchors": ["web/client/src/stores/sidebar-store.ts: loadInfrastructure, loadTimetable", "web/client/src/util/SoroClient.ts"]}
{"id": "C117", "title": "Highlighted routes of the client are those that were asked for", "statement": "A route is highlighted exactly as often as it was added since it was last removed; removed routes are not drawn; what is drawn is the path of the route in the chosen infrastructure.", "quantifier": "all histories of adding and removing routes, changes of the infrastructure, and orders of answers", "why_tests_cant": "Every interleaving of requests and answers has to be covered.", "anchors": ["web/client/src/stores/sidebar-store.ts: addHighlightedStationRoute, deleteHighlightedStationRoute, addHighlightedInterlockingRoute, deleteHighlightedInterlockingRoute"]}
{"id": "C118", "title": "The results below the search field belong to the text in it", "statement": "Once no search is pending, the results shown are the answer of the server to the text in the search field, and there are none for less than three characters. Every result is shown in full, with the part that matches the text emphasised.", "quantifier": "all histories of typing and answers; all names and texts", "why_tests_cant": "The texts are unbounded, and so are the interleavings of typing and answers.", "anchors": ["web/client/src/components/sidebar/search/extended-search.vue: search, highlightedName"]}
{"id": "C119", "title": "Trains are filtered by the ids typed into the field", "statement": "Numbers separated by commas that are typed into the field for train ids are the trains the server filters the ordering graph by, together with the chosen time range; any other text changes nothing, and an empty field means no filter.", "quantifier": "all texts, all sequences of texts entered, all time ranges", "why_tests_cant": "The texts and numbers are unbounded, and client and server parse them independently.", "anchors": ["web/client/src/components/base/soro-id-input.vue: emitEnter", "web/client/src/components/base/soro-datetimerange.vue", "web/client/src/util/SoroClient.ts: ordering_graph", "web/server/src/modules/ordering/serve_ordering_graph.cc: params_to_filter"]}
{"id": "C120", "title": "The ordering graph on screen belongs to the current settings", "statement": "Once no request is pending, the ordering graph shown is the answer to the time range, timetable and filter that are set, whole and without parts of other answers.", "quantifier": "all histories of changed settings and answers of the server in every order", "why_tests_cant": "Every interleaving of changes and answers has to be covered.", "anchors": ["web/client/src/components/ordering/ordering-graph.vue: createOrderingGraph"]}
{"id": "C121", "title": "Theme and colour of the web client are those chosen last", "statement": "Every page of the client is drawn in the theme its mode asks for (dark, light, or what the system says, following its changes) and in the colour chosen; a page opened later has the mode and the colour chosen last, and the defaults before any choice and after the local storage is cleared.", "quantifier": "all histories of opening, closing, choosing, changes of the system and clearing, on any number of pages", "why_tests_cant": "Every interleaving of choices on several pages has to be covered.", "anchors": ["web/client/src/stores/settings-store.ts", "web/client/src/vuetify.ts", "web/client/src/style.ts", "web/client/src/components/sidebar/menu/menu.vue: clearLocalStorage"]}
{"id": "C122", "title": "The map shows what is ticked in its legend", "statement": "A box of the legend is ticked as the user left it last, in this tab only, also after a reload; the map of the tab draws exactly the elements whose kind and direction are ticked, and the highlighted routes; a reset brings back the boxes a new user finds.", "quantifier": "all histories of opening and closing tabs, ticking, resetting, changes of theme and infrastructure, and reloads", "why_tests_cant": "The effect of a reset depends on what happens in all tabs afterwards; histories are unbounded.", "anchors": ["web/client/src/components/infrastructure/infrastructure-map.vue", "web/client/src/components/infrastructure/infrastructure-legend.vue", "web/client/src/components/infrastructure/map-style.ts", "web/client/src/components/infrastructure/element-types.ts"]}
{"id": "C123", "title": "Every tab of the client has an index of its own, also after a reload", "statement": "No two tabs of a window have the same index; a new tab gets one no open tab has, closing one leaves the others as they are, and loading the page again brings back the tabs stored last with their indices.", "quantifier": "all histories of adding, closing and moving tabs, storing the layout and loading the page again", "why_tests_cant": "Indices are given back and reused; every history has to be covered.", "anchors": ["web/client/src/golden-layout/golden-layout-adapter.vue: addComponent, loadGLLayout, unbindComponentEventListener", "web/client/src/stores/golden-layout-store.ts", "web/client/src/App.vue: initLayout"]}
{"id": "C124", "title": "A request of the web client reaches the server function it is meant for", "statement": "Every address is understood by the server in exactly one way. The addresses the client sends for the names, bounding box, stations, station, routes, element, search, timetables, timetable, ordering graph and tiles of an offered infrastructure reach that function with these names and numbers as parameters; the timetables answered are those offered, and unknown names are answered with not found.", "quantifier": "all addresses, all names, search texts, numbers and lists of numbers", "why_tests_cant": "The table of routes and the addresses are built in two languages; every name and text has to be covered, and every pair of patterns has to be shown not to overlap.", "anchors": ["web/server/src/soro_server.cc: set_up_routes", "web/client/src/util/SoroClient.ts", "web/client/src/components/infrastructure/map-style.ts", "web/server/src/modules/timetable/serve_timetable.cc", "web/server/src/modules/timetable/serve_timetable_names.cc", "web/server/src/modules/timetable/timetable_module.cc: get_timetable"]}
{"id": "C125", "title": "The station pane shows the station clicked last and its highlighted routes", "statement": "A click on a station brings up the pane with that station and a switch for each of its routes; a switch is on exactly if its route is highlighted, and turning it highlights the route or not; the buttons of the sidebar show one overlay at a time.", "quantifier": "all histories of clicks, buttons, switches, infrastructures loaded, and answers and failures of requests in any order", "why_tests_cant": "Every order in which answers arrive between clicks has to be covered.", "anchors": ["web/client/src/components/sidebar/station/station.vue", "web/client/src/components/base/soro-switch.vue", "web/client/src/components/sidebar/sidebar.vue", "web/client/src/stores/sidebar-store.ts", "web/client/src/components/infrastructure/infrastructure-map.vue: createMap"]}
{"id": "C126", "title": "A request of the web client is answered with the truth about the thing it is about, and the server survives it", "statement": "From the question of the user to the answer: the address the client sends leads to the facts about the station, route, element, timetable or ordering asked for, to not found if there is no such thing, and every address of whatever characters is answered; a thing searched by its name is found and can be asked for with the number of the result.", "quantifier": "all servers in good order, all addresses, all questions of the client, all guessers and sort functions", "why_tests_cant": "The claim is about every address any client may send and every server content; tests try a few.", "anchors": ["web/server/src/soro_server.cc: set_up_routes", "web/server/src/modules/infrastructure/serve_*.cc", "web/server/src/modules/search/serve_search.cc", "web/server/src/modules/timetable/serve_*.cc", "web/server/src/modules/ordering/serve_ordering_graph.cc", "web/client/src/util/SoroClient.ts"]}
{"id": "C127", "title": "The menu of the client shows what is in use", "statement": "The boxes of the menu show the infrastructure and the timetable in use and the field the time range in use, at every moment the menu is open; what is picked there is in use from then on; a tab for a timetable or an ordering graph can only be opened for a chosen infrastructure.", "quantifier": "all histories of choices, cleared boxes, opened overlays, other actions, and answers and failures of requests in any order", "why_tests_cant": "The menu is taken away and made anew whenever another overlay is opened, between choices and answers in every order.", "anchors": ["web/client/src/components/sidebar/menu/menu.vue", "web/client/src/components/base/soro-select.vue", "web/client/src/components/base/soro-datetimerange.vue", "web/client/src/components/sidebar/sidebar.vue", "web/client/src/stores/sidebar-store.ts: loadInfrastructure, loadTimetable, setCurrentDateRange"]}
{"id": "C128", "title": "A search of the client leads the map to what was found", "statement": "The results of the text in the field are listed, all and in the order of the server; a line that is clicked, or for the button the first result, is where the map goes; results belong to the infrastructure in use and the text in the field.", "quantifier": "all histories of infrastructures chosen, texts typed, buttons and lines clicked, overlays opened, the map moved, and answers and failures in any order", "why_tests_cant": "Answers, overlays and moves of the map interleave in unboundedly many ways, and whether the map moves depends on the result it was led to before.", "anchors": ["web/client/src/components/sidebar/search/extended-search.vue", "web/client/src/components/infrastructure/infrastructure-map.vue: currentBoundingBox", "web/client/src/components/sidebar/sidebar.vue", "web/client/src/stores/sidebar-store.ts: setCurrentSearchResults, setCurrentBoundingBox"]}
{"id": "C129", "title": "The client reads from an answer exactly what the server put into it", "statement": "Whatever named values a server function adds to its answer, in any nesting and number, the text is one JSON value with exactly these members in this order, and the client's request yields it; search results arrive as one list, also if there are none; after the text was taken nothing can be added; other statuses are rejected.", "quantifier": "all values that are added, of any depth and size, all lists of search results, all elements and statuses", "why_tests_cant": "The text is written piece by piece by a stack of nodes whose brackets are decided late; values of unbounded depth and empty lists at every place must come out balanced and named.", "anchors": ["web/server/include/soro/server/cereal/json_archive.h", "web/server/include/soro/server/cereal/cereal_extern.h", "web/server/src/modules/search/serve_search.cc", "web/server/src/modules/infrastructure/serve_element.cc", "web/client/src/util/HttpClient.ts: _fetchJSON"]}
{"id": "C130", "title": "Iterating a list of identifiers gives the things they name", "statement": "A loop over the station routes of an interlocking route or over the path of a train gives exactly the things its identifiers name, all of them, in their order and as often as they are named; an identifier that is too large ends the loop with an exception; iterators can be moved to and fro and lead where the moves add up to.", "quantifier": "all lists of identifiers, containers, positions and sequences of moves", "why_tests_cant": "Iterators may be moved in any sequence over lists of any length, with identifiers repeated or out of range at any place.", "anchors": ["include/soro/utls/container/id_iterator.h", "src/infrastructure/interlocking/interlocking_route.cc: station_routes", "include/soro/timetable/train.h: path"]}
{"id": "C131", "title": "Answers of the server have the types the client declares for them", "statement": "What the client reads from the answer of a request has the type its request function promises: every member the type names is there, with its type.", "quantifier": "all contents of the answers: all names, stations with all their routes, routes with all paths, elements, timetables and search results", "why_tests_cant": "The types of the client are not checked against any answer at run time, and lists of any length are to be of one type.", "anchors": ["web/client/src/util/SoroClient.ts", "web/server/src/modules/infrastructure/serve_station.cc", "web/server/src/modules/infrastructure/serve_element.cc", "web/server/src/modules/infrastructure/serve_station_names.cc", "web/server/src/modules/search/serve_search.cc", "web/server/src/modules/timetable/serve_timetable.cc"]}
{"id": "C132", "title": "The report of rejected trains is the same for every schedule of the workers", "statement": "When timetable files are read in parallel, the report lists each error that led to a rejected train once, in ascending order, with the number of trains rejected for it; it is empty if none was rejected. No order of the workers' steps loses a count, blocks or makes two workers use the counts at once.", "quantifier": "all numbers of files, all lists of rejected trains in them, and all interleavings of the workers' steps down to the single accesses of the counts", "why_tests_cant": "The interleavings cannot be enumerated by a test, and a lost update shows only under some of them.", "anchors": ["include/soro/base/error.h: stats", "src/timetable/parsers/kss/parse_kss_timetable.cc: parse_timetable_file, parse_kss_timetable"]}

{"id": "C01", "title": "Mixin ids are unique and lookup by id is the inverse of registration", "statement": "After any history of register_mixin/unregister_mixin/register_feature/... calls on any number of domains, domain.get_mixin_info(id) returns m exactly when m is currently registered in that domain and m.id == id. Two different mixins registered in one domain never have the same id, and an unregistered mixin is returned by no lookup.", "quantifier": "every finite history of registry calls (successful or failing) over any set of mixin infos and any number of domains", "why_tests_cant": "Tests exercise a few fixed registration orders; slot reuse after interleaved unregistration has unboundedly many histories.", "anchors": ["code/dynamix/domain.cpp: basic_register_l, basic_unregister_l, register_mixin, unregister_mixin, basic_get_by_id_l"]}
{"id": "C02", "title": "Feature ids are unique and lookup by id is the inverse of registration", "statement": "After any history, domain.get_feature_info(id) returns f exactly when f is currently registered in that domain with that id; distinct registered features have distinct ids. This includes features registered implicitly by register_mixin.", "quantifier": "every finite history of registry calls over any set of features, mixins and domains", "why_tests_cant": "Implicit registration by mixins and slot reuse can be interleaved in unboundedly many ways.", "anchors": ["code/dynamix/domain.cpp: basic_register_l, register_feature, unregister_feature, register_mixin"]}
{"id": "C03", "title": "Registration takes the least free id and never moves other ids", "statement": "A successful register_mixin/register_feature gives the info the least id that no currently registered info of the same kind in the domain has, and changes the id of no other already registered info. An id stays the same until the info is unregistered.", "quantifier": "every registry state reachable by any history, every info registered next", "why_tests_cant": "The reverse search with a name check must leave the least free slot for every pattern of free slots; tests try two or three patterns.", "anchors": ["code/dynamix/domain.cpp: basic_register_l 194-234"]}
{"id": "C04", "title": "Names are unique and lookup by name is exact", "statement": "In a domain which does not allow duplicate names, no two registered mixins (features) have equal names and none has an empty name; get_mixin_info(name) returns the one registered mixin with that name, and null exactly if there is none.", "quantifier": "every reachable registry state, every name", "why_tests_cant": "Needs the absence of a clash over all histories.", "anchors": ["code/dynamix/domain.cpp: basic_register_l, basic_get_by_name_l, get_mixin_info, get_feature_info"]}
{"id": "C05", "title": "A failing registration or unregistration has no effect on what is registered", "statement": "If register_mixin throws (already registered, registered elsewhere, empty or duplicate name), the set of registered mixins, all ids and types are unchanged. If unregister_mixin/unregister_feature throws because the info is not the domain's own, the domain (registry, types, stored queries) is unchanged.", "quantifier": "every reachable state, every info, every failure cause", "why_tests_cant": "Strong exception guarantee over all states; tests only look at the exception text.", "anchors": ["code/dynamix/domain.cpp: basic_register_l, register_mixin 264-285, unregister_mixin 287-335"]}
{"id": "C06", "title": "Unregister undoes register", "statement": "Registering an unregistered mixin and then unregistering it succeeds, leaves the mixin unregistered (invalid id, no domain), makes lookups by its id and name give what they gave before, and a later re-registration gives it the same id as the first one.", "quantifier": "every reachable state, every registrable mixin", "why_tests_cant": "Universally quantified over registry shapes.", "anchors": ["code/dynamix/domain.cpp: register_mixin, unregister_mixin"]}
{"id": "C07", "title": "Registered type classes are found", "statement": "After any history of register_type_class/unregister_type_class, get_type_class(name) returns the type class registered under that name and not unregistered since, and null if there is none; is_of(name) uses that class.", "quantifier": "every history of type class registrations and unregistrations", "why_tests_cant": "The free-slot path is only reached after an unregistration, which no test does.", "anchors": ["code/dynamix/domain.cpp: register_type_class 337-360, unregister_type_class 362-371", "code/dynamix/type.cpp: type::is_of"]}
{"id": "C08", "title": "A mixin belongs to at most one domain", "statement": "At any time a mixin info is registered in at most one domain; register_mixin on an info which is registered anywhere throws, and the recorded domain of an info is the domain where it can be looked up.", "quantifier": "every history over any number of domains", "why_tests_cant": "Multi-domain histories are unbounded.", "anchors": ["code/dynamix/domain.cpp: register_mixin 264-285, unregister_mixin 325-335"]}
{"id": "C09", "title": "Mutation rules are reference counted", "statement": "After any sequence of add_mutation_rule/remove_mutation_rule calls, a rule is active exactly if it was added more often than removed since it last became inactive (removing an inactive rule does nothing); num_mutation_rules is the number of distinct active rules. (Precondition: rule names that begin at the same address are the same string; C60 shows what happens otherwise.)", "quantifier": "every sequence of add/remove calls over any set of rules", "why_tests_cant": "Counting over unbounded histories.", "anchors": ["code/dynamix/domain.cpp: add_mutation_rule 405-418, remove_mutation_rule 419-431"]}
{"id": "C10", "title": "Active rules are applied in priority-then-name order, whatever order they were added in", "statement": "The active rules are applied in increasing order of order_priority, ties by name; the order depends only on the set of active rules and not on the order in which they were added. (Precondition: rule names that begin at the same address are the same string; C60 shows what happens otherwise.)", "quantifier": "every history of rule additions and removals, every set of priorities and names", "why_tests_cant": "Requires the comparison to be a strict weak order for all names and the sorted map to stay sorted under all histories.", "anchors": ["code/dynamix/domain.cpp: rule_compare 112-119", "code/dnmx/bits/sv.h: dnmx_sv_cmp"]}
{"id": "C11", "title": "A type returned by get_type is stable under the rules", "statement": "If get_type succeeds, then one more whole application of all active rules to the mixins of the returned type changes nothing.", "quantifier": "every query, every set of rules (arbitrary functions on mixin lists)", "why_tests_cant": "Rules are opaque user functions.", "anchors": ["code/dynamix/domain.cpp: apply_mutation_rules_l 438-487, get_type 489-531"]}
{"id": "C12", "title": "Rule application always ends within the documented bound", "statement": "get_type applies every active rule at most min(5, number of rules)+1 times; it ends with a type, with the error of a rule, or with the 'too deep or cyclic' error, and the latter only if the rules really keep changing the list.", "quantifier": "every query, every set of rules", "why_tests_cant": "Termination for arbitrary rules.", "anchors": ["code/dynamix/domain.cpp: apply_mutation_rules_l 438-487"]}
{"id": "C13", "title": "Stored queries are invisible", "statement": "At any time get_type(q) gives the type that recomputing from scratch with the currently active rules would give: the query cache never changes the result, after any history of rule changes, registrations, unregistrations, garbage collections and other queries.", "quantifier": "every history of domain operations, every query", "why_tests_cant": "Cache coherence over unbounded histories.", "anchors": ["code/dynamix/domain.cpp: get_type 489-547, add_mutation_rule, remove_mutation_rule, unregister_mixin, garbage_collect_types"]}
{"id": "C14", "title": "One type per mixin list", "statement": "In a domain two live types never have the same mixin list: two get_type calls which end up with equal mixin lists return the same type object, and calls which end up with different lists return different types.", "quantifier": "every history of domain operations, every pair of queries", "why_tests_cant": "Uniqueness over histories.", "anchors": ["code/dynamix/domain.cpp: get_type, create_type, type_compare, mixin_span_less"]}
{"id": "C15", "title": "A type only has registered mixins of its own domain, each once", "statement": "get_type returns a type only if every mixin in it is currently registered in that domain and none occurs twice; otherwise it throws. In every reachable state every type kept by the domain satisfies this.", "quantifier": "every query, every history", "why_tests_cant": "Invariant over histories including unregistration and slot reuse.", "anchors": ["code/dynamix/domain.cpp: create_type 689-700, unregister_mixin"]}
{"id": "C16", "title": "Canonical domains ignore the order of mixins", "statement": "In a domain with canonicalize_types, asking for any two permutations of the same mixins (no other rules active) gives the same type, whose mixins are sorted by canonical order (order_priority, then name). (Precondition: mixin names that begin at the same address are the same string; C60 shows what happens otherwise.)", "quantifier": "every list of mixins and every permutation of it", "why_tests_cant": "n! permutations; relies on canonical order being a strict weak order for all names.", "anchors": ["code/dynamix/domain.cpp: sort_by_canonical_order, m_canonicalize_rule", "code/dnmx/mixin_info.h: dnmx_mixin_canonical_order"]}
{"id": "C17", "title": "Garbage collection removes exactly the unused types", "statement": "garbage_collect_types removes exactly the types without living objects together with the stored queries leading to them; all other types and queries stay; the type of a living object is never removed.", "quantifier": "every reachable state", "why_tests_cant": "All patterns of used/unused types and queries.", "anchors": ["code/dynamix/domain.cpp: garbage_collect_types 838-861"]}
{"id": "C18", "title": "Unregistering a mixin removes exactly the types and queries involving it", "statement": "After a successful unregister_mixin(m) no type and no stored query mentions m, and every type and every stored query which did not involve m is still there.", "quantifier": "every reachable state, every registered mixin without objects", "why_tests_cant": "All patterns of types and queries; ids are reused by later registrations.", "anchors": ["code/dynamix/domain.cpp: unregister_mixin 287-335"]}
{"id": "C19", "title": "A failing get_type changes nothing", "statement": "If get_type throws for any reason (rule error, cyclic rules, unregistered/foreign/duplicate mixin, feature clash), the types and stored queries of the domain are unchanged.", "quantifier": "every query and reachable state", "why_tests_cant": "All failure causes in all states.", "anchors": ["code/dynamix/domain.cpp: get_type, create_type"]}
{"id": "C20", "title": "index_of, has and lacks are exact", "statement": "For a type t and any mixin id: index_of(id) is i exactly if the mixin at position i of the type has that id, and invalid if no mixin of the type has it; by-name lookup finds the first mixin of that name; has/lacks agree with it.", "quantifier": "every type, every id and name (including ids beyond the sparse array and the invalid id)", "why_tests_cant": "All types and ids.", "anchors": ["code/dynamix/type.hpp: index_of, has, lacks", "code/dynamix/type.cpp: index_of", "code/dynamix/domain.cpp: create_type 808-815"]}
{"id": "C21", "title": "The object buffer layout is sound", "statement": "In the object buffer of any type: each internal mixin lies at a multiple of its alignment, inside the buffer, after the mixin data array; the pointer-sized slot directly before it (for the object pointer) overlaps neither the array nor any other mixin or slot; no two mixins overlap; the buffer alignment is at least that of every internal mixin. An offset is zero exactly for external mixins. (Precondition: the total size fits in 32 bits, the width the library uses.)", "quantifier": "every list of mixins with any sizes and alignments", "why_tests_cant": "Arithmetic over all combinations; 32-bit overflow must be excluded or handled.", "anchors": ["code/dynamix/domain.cpp: create_type 781-806", "code/dynamix/alloc_util.hpp: next_multiple"]}
{"id": "C22", "title": "The buffer of an external mixin is sound", "statement": "For any size and alignment, the mixin inside an external buffer is at a multiple of its alignment, the object pointer slot before it is inside the buffer and pointer-aligned, and the mixin ends inside the buffer. (Precondition: the total size fits in 32 bits, the width the library uses.)", "quantifier": "every size and alignment", "why_tests_cant": "All sizes and alignments.", "anchors": ["code/dnmx/mixin_info.h: dnmx_set_mixin_info_size_and_alignment 176-190"]}
{"id": "C23", "title": "A type implements exactly the features its mixins list", "statement": "type.implements_strong(f) holds exactly if some mixin of the type lists f; the recorded implementations of f are exactly the listed ones, each attributed to the position of its mixin. Lookup by id and by info agree.", "quantifier": "every type, every registered feature", "why_tests_cant": "All mixin and feature combinations.", "anchors": ["code/dynamix/domain.cpp: ftable_build_helper 549-686", "code/dynamix/type.cpp: implements_strong, implements"]}
{"id": "C24", "title": "Unicast picks highest bid, then lowest priority value, then last mixin", "statement": "A unicast message call on an object executes exactly one implementation: one with the highest bid; among these the least priority number; among these the one of the mixin latest in the type.", "quantifier": "every type and message", "why_tests_cant": "All combinations of bids, priorities and orders.", "anchors": ["code/dynamix/msg/msg_caller.hpp: call_unicast 52-62", "code/dynamix/domain.cpp: build_ftable sort 648-660"]}
{"id": "C25", "title": "Multicast executes each top bidder once in the documented order", "statement": "A multicast call executes exactly the implementations with the highest bid, each exactly once, in order of decreasing priority number and, within one priority, in mixin order; it returns the result of the last one executed, which is the unicast one.", "quantifier": "every type and message", "why_tests_cant": "All combinations of bids and priorities.", "anchors": ["code/dynamix/msg/msg_caller.hpp: call_multicast 64-80", "code/dynamix/domain.cpp: build_ftable 674-681"]}
{"id": "C26", "title": "Feature clashes are detected exactly", "statement": "Creating a type throws a feature clash error exactly if some feature which does not allow clashes is listed twice with equal bid and equal priority by the mixins of the type.", "quantifier": "every mixin list", "why_tests_cant": "Adjacent comparison after sorting has to find every clashing pair.", "anchors": ["code/dynamix/domain.cpp: build_ftable 662-672"]}
{"id": "C27", "title": "The next-implementer chain visits every implementer once", "statement": "Starting from the implementation called by unicast and repeatedly calling the next implementer visits all implementations of the feature in the type, each once, in order of decreasing bid, and then ends.", "quantifier": "every type and feature", "why_tests_cant": "Chains of any length.", "anchors": ["code/dynamix/type.cpp: find_implementer, find_next_implementer 45-64", "code/dynamix/msg/next_impl.hpp"]}
{"id": "C28", "title": "The next bidder set is the set of implementers with the next lower bid", "statement": "find_next_bidder_set(f, m) is exactly the set of implementers of f in the type whose bid is the greatest one below the bid of m, and is empty if m does not implement f or no lower bid exists.", "quantifier": "every type, feature and mixin", "why_tests_cant": "All combinations of bids.", "anchors": ["code/dynamix/type.cpp: find_next_bidder_set 66-81", "code/dynamix/msg/next_impl.hpp: call_next_bidder_set"]}
{"id": "C29", "title": "Default payloads are used exactly when nothing implements the message", "statement": "Calling a message on an object executes the default implementation exactly if no mixin of its type implements it and a default exists, and throws exactly if neither exists; implements() says which.", "quantifier": "every type (including the empty one) and every message", "why_tests_cant": "All types and messages.", "anchors": ["code/dynamix/msg/msg_caller.hpp: try_default_payload", "code/dynamix/type.cpp: implements", "code/dnmx/basic_type.h: ftable_at"]}
{"id": "C30", "title": "Type comparison is a total order", "statement": "type.compare is 0 exactly for the same type, antisymmetric, and transitive on the types of a domain. (Precondition: mixin names that begin at the same address are the same string; C60 shows what happens otherwise.)", "quantifier": "every pair and triple of types", "why_tests_cant": "Triples over all names and priorities.", "anchors": ["code/dynamix/type.cpp: compare 89-114", "code/dnmx/mixin_info.h: dnmx_mixin_canonical_order", "code/dnmx/bits/sv.h: dnmx_sv_cmp"]}
{"id": "C31", "title": "Type traits predict what objects can do", "statement": "default_constructible/copy_constructible/copy_assignable/equality_comparable/comparable of a type hold exactly if every mixin provides the respective function; an object of a type can be created (copied) without error if the trait holds and no callback or allocation fails, and creation always throws if the trait does not hold.", "quantifier": "every type", "why_tests_cant": "All mixin combinations.", "anchors": ["code/dynamix/type.cpp: 116-134", "code/dynamix/object_mutation.cpp: default_init_new_func"]}
{"id": "C32", "title": "type_mutation operations do what they say", "statement": "add appends; add_if_lacking appends only if absent; remove removes the first occurrence and nothing else; to_back moves the first occurrence to the end keeping the others in order, or throws if absent; dedup keeps exactly the last occurrence of every mixin in order. has/lacks/implements agree with the list.", "quantifier": "every mixin list, every mixin and name", "why_tests_cant": "All lists.", "anchors": ["code/dynamix/type_mutation.cpp: 33-141", "code/dynamix/type_mutation.hpp"]}
{"id": "C33", "title": "Every mixin instance is constructed once and destroyed once", "statement": "In any history of object operations (creation, mutation, copy, move, clear, destruction) with any allocation or user callback failing at any point: no mixin function is ever called on a buffer that does not hold a constructed instance of that mixin (or, for constructors, on one that already does), and when all objects are destroyed no constructed instance is left.", "quantifier": "every history of object operations, every pattern of callback and allocation failures", "why_tests_cant": "Every failure point in every mutation between every pair of types.", "anchors": ["code/dynamix/object_mutation.cpp", "code/dynamix/object_mutation.hpp", "code/dynamix/object.cpp"]}
{"id": "C34", "title": "Every allocation is freed exactly once, by the same allocator with the same size", "statement": "Every buffer allocated for an object or an external mixin is deallocated exactly once, through the allocator it came from and with the size and alignment of the allocation; after all objects are destroyed no buffer remains. Holds whatever fails.", "quantifier": "every history of object operations, every failure pattern, every mix of object and mixin allocators", "why_tests_cant": "All failure points and allocator combinations.", "anchors": ["code/dynamix/object_mutation.cpp: allocate_mixin_data, deallocate_mixin_data, finalize"]}
{"id": "C35", "title": "A failing mutation leaves the object as it was", "statement": "If reset_type/mutate_to/mutate fails (allocation, missing or failing init, sealed object), the object has the same type, the same mixins at the same addresses with the same values, and no memory is leaked.", "quantifier": "every object, target type and failure point", "why_tests_cant": "Every failure point.", "anchors": ["code/dynamix/object_mutation.cpp: rollback 187-196, ~object_mutation 48-66"]}
{"id": "C36", "title": "A mutation keeps common mixins", "statement": "After a successful mutation every mixin the old and new type have in common still has its value (moved over when it is internal, not touched and at the same address when external); no common mixin is re-initialised.", "quantifier": "every pair of types, every object", "why_tests_cant": "All pairs of types with any overlap and order.", "anchors": ["code/dynamix/object_mutation.cpp: finalize 198-256, allocate_mixin_data 118-122"]}
{"id": "C37", "title": "A successful mutation gives exactly the target type", "statement": "After a successful reset_type(t): the object's type is t, it has a live instance of exactly the mixins of t, each found by get(id) of that mixin; mixins only in t were initialised, mixins only in the old type were destroyed and freed.", "quantifier": "every object and target type", "why_tests_cant": "All pairs of types.", "anchors": ["code/dynamix/object_mutation.cpp", "code/dynamix/object.cpp: reset_type 242-254, get 217-234"]}
{"id": "C38", "title": "object_of finds the owning object", "statement": "At any time, for every mixin of every object, object_of(mixin pointer) is that object, also after moves and mutations.", "quantifier": "every history of object operations", "why_tests_cant": "All histories.", "anchors": ["code/dynamix/object_of.hpp", "code/dnmx/object_mixin_data.h: set_object", "code/dynamix/object.cpp: usurp"]}
{"id": "C39", "title": "Moving an object transfers everything and runs no mixin code", "statement": "Move construction and successful move assignment make the target have the source's type and the very same mixin instances (same addresses and values), leave the source empty, free exactly what the target had before, and call no mixin function on the moved mixins.", "quantifier": "every pair of objects", "why_tests_cant": "All object states.", "anchors": ["code/dynamix/object.cpp: move ctor 31-35, operator= 46-57, usurp 303-316"]}
{"id": "C40", "title": "A sealed object cannot be changed", "statement": "Every operation which changes the type of an object (clear, reset_type, mutate, mutate_to, copy_from, move assignment to it) throws on a sealed object and leaves it, its mixins and the memory unchanged.", "quantifier": "every sealed object, every operation and argument", "why_tests_cant": "All operations in all states.", "anchors": ["code/dynamix/object.cpp: 46-57, 89-95, 236-254", "code/dynamix/object_mutation.cpp: 14-23"]}
{"id": "C41", "title": "copy makes an independent equal object or nothing", "statement": "A successful copy has the source's type and copied values in fresh memory, and leaves the source unchanged; a failing copy leaves all objects and the memory as they were.", "quantifier": "every object, every failure point", "why_tests_cant": "All failure points.", "anchors": ["code/dynamix/object.cpp: copy 68-87"]}
{"id": "C42", "title": "copy_from gives the source's type and values, or keeps the type", "statement": "After a successful copy_from the target has the source's type and copied values (assigned for common mixins, constructed for new ones); if it fails the target keeps its type and is still a valid object, and nothing leaks.", "quantifier": "every pair of objects, every failure point", "why_tests_cant": "All failure points.", "anchors": ["code/dynamix/object.cpp: copy_from 89-123"]}
{"id": "C43", "title": "Matching copies and moves only touch common mixins", "statement": "copy_matching_from and move_matching_from never change the type of either object or any mixin which the two do not share; if the availability check throws nothing is changed; on success all shared mixins are assigned.", "quantifier": "every pair of objects", "why_tests_cant": "All pairs of types.", "anchors": ["code/dynamix/object.cpp: copy_matching_from 125-150, move_matching_from 152-188"]}
{"id": "C44", "title": "Object equality and comparison are consistent", "statement": "If the mixins' equals/compare functions are equivalences/orders, then object equals is reflexive, symmetric and transitive on objects whose type is equality comparable, and compare is a total preorder consistent with it; objects of different types are never equal.", "quantifier": "every set of objects and user comparison functions", "why_tests_cant": "All objects.", "anchors": ["code/dynamix/object.cpp: equals 256-276, compare 278-293"]}
{"id": "C45", "title": "num_objects counts the objects of a type", "statement": "Between operations, num_objects of a type is the number of living non-empty objects of that type.", "quantifier": "every history of object operations with any failures", "why_tests_cant": "Every failure path must keep the counter right.", "anchors": ["code/dynamix/type.cpp: allocate_object_buffer, deallocate_object_buffer 136-145"]}
{"id": "C46", "title": "The type of a living object stays valid", "statement": "Whatever domain operations (get_type, garbage collection, rule changes, registrations, unregistering mixins not used by objects) happen, the type of every living object is a type of its domain with all its mixins registered.", "quantifier": "every interleaving of domain and object operations", "why_tests_cant": "All histories mixing both.", "anchors": ["code/dynamix/domain.cpp: garbage_collect_types, unregister_mixin", "code/dynamix/type.cpp: allocate_object_buffer"]}
{"id": "C47", "title": "Mutating to the empty type empties the object", "statement": "Any mutation whose target type is the empty type (removing the last mixin with mutate, mutate_to the empty type, the C functions) leaves the object empty, with all its mixins destroyed and all its memory freed, and the types' object counts right.", "quantifier": "every object and every mutation API", "why_tests_cant": "The path depends on which API is used; tests use reset_type and clear.", "anchors": ["code/dynamix/object_mutation.cpp: finalize, ~object_mutation", "code/dynamix/mutate_to.hpp", "code/dynamix/mutate-c.cpp"]}
{"id": "C48", "title": "Init overrides initialise the mixin they name", "statement": "In mutate/mutate_to with init overriding ops, each override is executed at most once, on the buffer of the mixin it names, and only if that mixin is new; all other new mixins are default-initialised.", "quantifier": "every object, target type and list of ops", "why_tests_cant": "All lists of ops in all orders.", "anchors": ["code/dynamix/mutate_to.hpp 16-56", "code/dynamix/object_mutation.hpp: update_next_mixin", "code/dynamix/mutate_ops.hpp"]}
{"id": "C49", "title": "Piecewise mutation respects the order", "statement": "object_mutation::update_at(i, ...) on mixins in increasing order updates exactly mixin i with the given functions and default-initialises the skipped ones; an index already passed or outside the type throws and leaves the object unchanged.", "quantifier": "every target type and sequence of indices", "why_tests_cant": "All index sequences.", "anchors": ["code/dynamix/object_mutation.hpp: update_at 85-92, update_next_mixin 37-55"]}
{"id": "C50", "title": "C overrides are applied to their mixin", "statement": "dnmx_mutate_to calls for each mixin of the target the first override matching it: init_new if the mixin is new, update_common if it is common, each once; it returns success exactly if no call failed, and on failure the object keeps its type.", "quantifier": "every object, type and array of overrides", "why_tests_cant": "All arrays of overrides.", "anchors": ["code/dynamix/mutate-c.cpp: dnmx_mutate_to 22-68"]}
{"id": "C51", "title": "A mutation which reports success has been applied", "statement": "If mutate_to/reset_type/dnmx_mutate_to returns without an error, the object has the target type, also when the call is made while another exception is being handled or unwound.", "quantifier": "every object, target, and whether an exception is in flight", "why_tests_cant": "Depends on std::uncaught_exceptions at run time.", "anchors": ["code/dynamix/object_mutation.cpp: ~object_mutation 48-66"]}
{"id": "C52", "title": "The v1 combinators compute the fold of the results", "statement": "Multicasting with boolean_and / boolean_or / sum / mean gives the conjunction / disjunction / sum / arithmetic mean of the results of all top bidders; boolean_and and boolean_or stop at the first false / true and the implementations after it are not executed.", "quantifier": "every list of results", "why_tests_cant": "All lists.", "anchors": ["v1compat/code/dynamix/v1compat/combinators.hpp", "code/dynamix/msg/msg_caller.hpp: call_with_v1_combinator 82-102"]}
{"id": "C53", "title": "The v1 rules have their documented effect and settle", "statement": "mutually_exclusive_mixins keeps exactly the last of its mixins and everything else in order; mandatory adds if absent; deprecated removes; substitute replaces source by target; dependent mixins are present whenever the master is. Applying such a rule to its own result changes nothing for the idempotent ones.", "quantifier": "every mixin list", "why_tests_cant": "All lists.", "anchors": ["v1compat/code/dynamix/v1compat/mutation_rules.cpp", "v1compat/code/dynamix/v1compat/common_mutation_rules.hpp"]}
{"id": "C54", "title": "v1 rule ids denote the rule until it is removed", "statement": "add_mutation_rule returns an id that no other present rule has; remove_mutation_rule(id) removes and returns exactly the rule added under that id, and returns null for ids not in use; the domain's active rules are exactly those present.", "quantifier": "every sequence of v1 add/remove calls", "why_tests_cant": "All histories with slot reuse.", "anchors": ["v1compat/code/dynamix/v1compat/mutation_rules.cpp: 41-68"]}
{"id": "C55", "title": "attaches_to and also_adds hold in every type", "statement": "If the rule attaches_to<P> of D (or also_adds<D> of P) is active, every type returned by get_type which has P also has D; with attaches_to, a type with D but none of its primaries is never produced from attaches_to rules alone.", "quantifier": "every query and rule set containing the rule", "why_tests_cant": "All queries and rule sets.", "anchors": ["code/dynamix/common_mutation_rules.hpp", "code/dynamix/domain.cpp: apply_mutation_rules_l"]}
{"id": "C56", "title": "Concurrent get_type calls agree", "statement": "Any number of threads calling get_type concurrently on one domain (no rule change, collection or unregistration at the same time) each get the type the sequential call would give: the right mixin list, and the same type object for equal lists; the registry stays consistent.", "quantifier": "every number of threads, every query per thread and every interleaving of the locked regions", "why_tests_cant": "Schedules cannot be enumerated by tests.", "anchors": ["code/dynamix/domain.cpp: get_type 489-531, create_type 817-835"]}
{"id": "C57", "title": "Concurrent rule changes do not leave stale results", "statement": "After concurrent get_type and add/remove_mutation_rule calls have finished, get_type gives what the now active rules say.", "quantifier": "every interleaving of the locked regions", "why_tests_cant": "A window of a few instructions between two locks.", "anchors": ["code/dynamix/domain.cpp: get_type 489-531, add_mutation_rule, create_type"]}
{"id": "C58", "title": "Concurrent collection does not invalidate a type being returned", "statement": "With get_type and garbage_collect_types running concurrently, a stored query always leads to a type the domain still has.", "quantifier": "every interleaving of the locked regions", "why_tests_cant": "A window between two locks.", "anchors": ["code/dynamix/domain.cpp: get_type 515-528, garbage_collect_types, unregister_mixin"]}
{"id": "C59", "title": "Domain operations never deadlock", "statement": "No schedule of domain operations on any number of threads ends in a deadlock, as rules look up mixins by name while the type registry is locked.", "quantifier": "every number of threads, every schedule", "why_tests_cant": "Schedules cannot be enumerated.", "anchors": ["code/dynamix/domain.cpp: lock usage in all domain::impl functions, domain_traverse 864-877"]}
{"id": "C60", "title": "String view comparison is a total order on contents", "statement": "dnmx_sv_cmp(a, b) is negative/zero/positive exactly as the contents of a compare lexicographically to those of b.", "quantifier": "every pair of string views into any memory", "why_tests_cant": "All strings and all ways the views may overlap.", "anchors": ["code/dnmx/bits/sv.h: dnmx_sv_cmp 82-101"]}
{"id": "C61", "title": "All ways to ask for a mixin agree", "statement": "For every object with a type, get_mixin_at/get(id)/get(name)/has/is_empty agree with each other and with the object's type: a pointer is returned exactly if the object has such a mixin, and then it points to the living instance of that mixin (by name: of the first one with that name).", "quantifier": "every state of every history of object operations, every object, index, id and name", "why_tests_cant": "the agreement has to hold in every reachable state, after any failures", "anchors": ["code/dynamix/object.cpp", "code/dynamix/object.hpp", "code/dynamix/type.hpp"]}
{"id": "C62", "title": "Operations do not touch other objects", "statement": "An operation changes no object but those it is called on (for moves also the source): all other objects keep type, mixins, addresses and values, whether the operation succeeds or fails; in particular a copy never changes its source.", "quantifier": "every history, every operation, every other object", "why_tests_cant": "quantifies over all states and all other objects sharing types, allocators and domains", "anchors": ["code/dynamix/object.cpp", "code/dynamix/object_mutation.cpp"]}
{"id": "C63", "title": "Errors are reported exactly if something failed", "statement": "If an object operation returns normally, all functions of mixins and overrides that it called returned success. If it throws the error of a function, then exactly one call failed and with that error; if it throws bad_alloc, an allocation failed (or there was no memory for a new type); if it throws another error, no call failed.", "quantifier": "every operation, state and pattern of failures", "why_tests_cant": "quantifies over every position at which a function or an allocation can fail", "anchors": ["code/dynamix/object.cpp", "code/dynamix/object_mutation.cpp", "code/dynamix/mutate_to.hpp", "code/dynamix/mutate.hpp"]}
{"id": "C64", "title": "Programs that keep the contracts have no undefined behaviour", "statement": "In any history of domain and object operations that keep the documented contracts, whatever functions and allocations fail, no operation has undefined behaviour: no use of freed memory, no call on a buffer without living instance, no out-of-bounds access, no failed assert.", "quantifier": "every history that keeps the contracts, every failure pattern", "why_tests_cant": "a sanitizer sees single executions only", "anchors": ["code/dynamix/object.cpp", "code/dynamix/object_mutation.cpp", "code/dynamix/domain.cpp"]}
{"id": "C65", "title": "The seal and the allocator of an object change only as asked", "statement": "An object is sealed after a call exactly if it was sealed before, or the call was seal() on it, or it took over a sealed object by a move assignment that succeeded. Nothing unseals an object, not even being moved from. The allocator of an object never changes. A new object has the allocator and the seal asked for; copies start unsealed; an object made by moving takes both from its source. An object exists until its destructor is called.", "quantifier": "every operation, every state, every failure pattern", "why_tests_cant": "a test sees the seal after the operations it tries; that no operation on any object ever drops or sets a seal by the way is about all operations, including those that fail half way", "anchors": ["code/dynamix/object.cpp:12-57", "code/dynamix/object.cpp:303-316", "code/dynamix/object.hpp:184-189"]}
{"id": "C66", "title": "Ending a definition undoes exactly what it did", "statement": "A definition of a mixin (mixin_info_data) registers the mixin and adds its mutation rules to a domain; its end takes them back. After any sequence of definitions beginning and ending, mixed with type requests, objects, garbage collection and registration of other mixins, the rules of a domain are exactly those asked for by the definitions that are open, each counted once per definition, plus the canonicalize rule, and a defined mixin is registered exactly while its definition is open. The end of a definition never terminates the program, and it succeeds if no objects with the mixin are left.", "quantifier": "every sequence of definitions, type requests and registrations, every list of rules, shared between definitions or not", "why_tests_cant": "rules are reference counted across definitions; a test sees a few orders of loading and unloading plugins only", "anchors": ["code/dynamix/mixin_info_data.cpp:9-21", "code/dynamix/mixin_info_data.hpp:32-46", "code/dynamix/define_mixin.hpp:24-32"]}
{"id": "C67", "title": "The mixin builder says what it was told, without dangling references", "statement": "Whatever sequence of calls is made to the mixin builder, and whenever its containers and strings move their contents, the finished info has the last name given, the features in the order of the calls with the bid and priority of the first perk that sets them, the rules in the order of the calls with their names and priorities, the dependency flag of the last call that sets it and the last allocator; no name, feature list or rule in it refers to memory that was left. Names generated for rules are different for different rules of the mixin, even if the mixin is renamed in between.", "quantifier": "every sequence of builder calls, every pattern of reallocation", "why_tests_cant": "dangling views after a reallocation depend on capacities and small-string sizes that tests do not vary", "anchors": ["code/dynamix/mixin_info_data.hpp:48-240"]}
{"id": "C68", "title": "Rules without a name are applied in the order in which the builder got them", "statement": "Mutation rules that a mixin builder names itself, with the same priority, are applied in the order of the calls that added them.", "quantifier": "every sequence of builder calls", "why_tests_cant": "the order comes from comparing generated names; it breaks at the eleventh rule only", "anchors": ["code/dynamix/mixin_info_data.hpp:186-232", "code/dynamix/domain.cpp:404-418"]}
{"id": "C69", "title": "The C functions report failure by their result, never by an exception", "statement": "No C++ exception leaves a function of the C interface (objects, types, domains, type mutations, mutation) if the calling contracts of the operations are kept: failure is told by the result.", "quantifier": "every history of C calls, every call, every outcome of user functions and allocations", "why_tests_cant": "each function has its own try block or none; which C++ operation can throw in which state depends on all of the library", "anchors": ["code/dynamix/object-c.cpp:15-149", "code/dynamix/domain-c.cpp:16-135", "code/dynamix/type-c.cpp:50-62", "code/dynamix/type_mutation-c.cpp:14-116"]}
{"id": "C70", "title": "C programs do what the C++ calls do", "statement": "A call of the C interface changes domains and objects as the C++ operation that it stands for does, and its result is success just if that operation succeeds: the handle of the new object, the type, the comparison, or 0; other calls change neither. Calls on a type mutation change its list of mixins and answer as the C++ functions do, and leave it as it is when they fail. A type mutation handle is used up by dnmx_get_type, even if it fails, and changed by no other call than those it is given to. Histories of C programs are histories of C++ programs, so all other properties hold for them.", "quantifier": "every state, every call, every history of C calls", "why_tests_cant": "the claim is about every state, including failing calls in between", "anchors": ["code/dynamix/object-c.cpp:15-149", "code/dynamix/domain-c.cpp:16-135", "code/dynamix/type_mutation-c.cpp:14-116", "code/dynamix/mutate-c.cpp"]}
{"id": "C71", "title": "A domain call that runs out of memory can be made again", "statement": "Registering a feature, mixin or type class, adding a rule and getting a type, when an allocation fails, throw bad_alloc and leave all registries as they were, except that features of the mixin may be registered and the type may be there without objects and without a stored query. Registries stay sound, and the same call made again, after any number of such failures, does exactly what it would have done at first. A call that does not throw bad_alloc does what it does with enough memory.", "quantifier": "every history of domain calls, every pattern of failing allocations in it, every call", "why_tests_cant": "any allocation of any call in any state may fail; tests fail a few chosen ones", "anchors": ["code/dynamix/domain.cpp:195-234", "code/dynamix/domain.cpp:264-285", "code/dynamix/domain.cpp:337-360", "code/dynamix/domain.cpp:405-416", "code/dynamix/domain.cpp:489-547", "code/dynamix/domain.cpp:689-836"]}
{"id": "C72", "title": "Traversal visits exactly what is there", "statement": "domain_traverse visits each registered mixin, feature and type class, each active rule with its count, each live type other than the empty one and each stored query with the type that get_type gives for it, exactly once and nothing else; num_types, num_type_queries and num_mutation_rules are the numbers of visits.", "quantifier": "every history of domain calls, every domain", "why_tests_cant": "holes in the sparse arrays and what is left after failures, collection and unregistration depend on the whole history", "anchors": ["code/dynamix/domain.cpp:863-908", "code/dynamix/domain.cpp:988-1003", "code/dynamix/domain_traverse.hpp"]}
{"id": "C73", "title": "Domains are independent, and infos outlive them", "statement": "A call on one domain changes nothing of any other domain: not its registries, types, stored queries or the ids of its mixins and features. Unregistering before the end of a domain is optional (domain.hpp:56): when a domain is destroyed, its mixins and features can be used in other domains.", "quantifier": "every history with several domains and their ends, every pair of domains", "why_tests_cant": "infos are shared by all domains of the process; what an ended domain leaves in them shows only in later calls on other domains", "anchors": ["code/dynamix/domain.cpp:195-243", "code/dynamix/domain.cpp:264-335", "code/dynamix/domain.cpp:914-917", "code/dynamix/domain.hpp:53-62"]}
{"id": "C74", "title": "Mixins are in allocated, aligned memory and never overlap", "statement": "Whenever the library gives a pointer to a function of a mixin (init, copy, move, destroy; target or source), the block it points into is allocated at that moment, the mixin's size and the object pointer before it lie within the block, and both are aligned. Two such pointers into one block are the same place or have no byte in common, and none lies in the array of mixin data of the object. The same holds of all mixins that objects give out and of the object pointers.", "quantifier": "every history of object and domain calls, whatever the user functions and allocators do and wherever they fail, every event and every object", "why_tests_cant": "a wrong offset reads or writes a neighbour only for certain sizes, alignments and orders of mixins, and tests see it only if the corrupted bytes matter", "anchors": ["code/dynamix/object_mutation.cpp:87-138", "code/dynamix/object_mutation.cpp:198-256", "code/dynamix/domain.cpp:775-836", "code/dnmx/mixin_info.h:135-160", "code/dnmx/object_mixin_data.h:11-25", "code/dynamix/object_of.hpp:14-19"]}
{"id": "C75", "title": "Every mixin has its own bytes, and the common functions keep them", "statement": "Run over the bytes of memory, the calls of any history (with common functions for plain mixins, or any functions of the program that write only to their mixins) leave for every mixin exactly the bytes that the calls on it and the program's own writes to it gave it: nothing the library does changes the bytes of another mixin. So a new object of plain mixins is zero, a copy has the bytes of its original, a mutation keeps the bytes of the mixins that stay, moved or not, and no call changes another object's bytes. The common comparison orders by the first different byte, is a total order, and says equal only for equal bytes. The exception: an object copied to itself gives memcpy overlapping bytes.", "quantifier": "every history of object and domain calls, every assignment of common and own functions to mixins, every initial memory and all writes of the program in between", "why_tests_cant": "tests compare a few values after a few calls; here all bytes of all mixins after any calls, for all sizes and layouts", "anchors": ["code/dnmx/mixin_common_funcs.c:9-34", "code/dnmx/mixin_common_funcs.h:18-73", "code/dynamix/mixin_info_util.hpp:60-95", "code/dynamix/object_mutation.cpp:87-256", "code/dynamix/object.cpp:68-150"]}
{"id": "C76", "title": "What functions of mixins see of objects while they are called", "statement": "While the library calls a function of a mixin, object_of gives for the mixin the object the operation works on, and for the source the object copied or moved from. All objects that had a type answer all questions about it as before the operation (also the object that is mutated: its old type). Other objects have all their mixins with their values. As long as mixins are constructed, copied or updated, the object itself still has all its old mixins. A destroy function in the destructor, in clear or in move assignment sees the mixins of lower index and itself, and those of higher index are destroyed. Memory seen at each moment is exactly what the events before tell. An object that is being made by object(type) or object::copy has no type yet: asking for it is undefined.", "quantifier": "every history of object and domain calls, every operation with every outcome, every call of a user function in it, every object asked", "why_tests_cant": "what a callback sees depends on how far the operation has come; tests look before and after operations, not inside all of them", "anchors": ["doc/advanced/danger.md:5-29", "code/dynamix/object_mutation.cpp:87-256", "code/dynamix/object.cpp:20-188", "code/dynamix/object_of.hpp:14-19"]}
{"id": "C77", "title": "External mixins can be used during a mutation", "statement": "In a mutation, functions of mixins can safely access other mixins of the object that are external (danger.md:28): the object gives a pointer to them, and it is to a living mixin in allocated memory.", "quantifier": "every history, every mutation with every outcome, every event in it, every external mixin of the object", "why_tests_cant": "the memory is freed in between the calls of one operation and often still has the old bytes", "anchors": ["doc/advanced/danger.md:28", "code/dynamix/object_mutation.cpp:198-256"]}
{"id": "C78", "title": "A type and its tables are one buffer", "statement": "The domain allocates one buffer for a type and places the type, its feature table with all payloads, its mixins, their offsets and the sparse indices in it. If the sizes sum up to less than 4 GiB, the buffer has exactly the size needed, every write and read is inside the buffer and aligned for what is read or written, nothing is written over the members of the type, no table overwrites another, and what is read from the buffer (mixins, offsets, index_of, entries of the feature table, payloads) is what the type should have. Creation throws as it should. The bound is needed: beyond it the computed sizes wrap and tables are written behind the buffer.", "quantifier": "every list of mixins with any features, every assignment of ids to mixins and features, every content of the fresh buffer, every size of the members of the type that is a multiple of 8", "why_tests_cant": "writes behind a buffer or over a neighbouring table often have no visible effect, and the sizes depend on all ids in the process", "anchors": ["code/dynamix/domain.cpp:549-836", "code/dnmx/basic_type.h:19-76", "code/dynamix/type.hpp:46-74", "code/dynamix/domain.cpp:101-107"]}
{"id": "C79", "title": "The default memory resource gives as much memory as asked for", "statement": "In builds without std::pmr, the default memory resource gives for n bytes with alignment a an aligned block of at least n bytes, or throws bad_alloc. So every mixin of an object lies in memory that was really allocated.", "quantifier": "all sizes and alignments, every aligned_alloc, every type of a reachable world", "why_tests_cant": "the wrong sizes are those near and above 2^32", "anchors": ["code/dynamix/compat/pmr/memory_resource.cpp:15-32", "code/dynamix/alloc_util.hpp:10-13", "code/dynamix/type.cpp:136-140"]}
{"id": "C80", "title": "A mixin made from a class does what the class does", "statement": "An info made from a C++ class has the size and alignment of the class and exactly the functions that the class supports: default construction, copies, moves that cannot throw, destruction if it is not trivial. Types of such mixins are default constructible, copy constructible, copy assignable exactly if all their classes are. In no history is a member called that the class does not have, or a move that can throw. Trivially constructible classes start as zeros, trivially copyable ones are copied byte by byte, and in mutations what is kept has the same bytes. Mixins of classes with a destructor are changed by members of the class only (refuted for trivial move assignment). The macros for C give the same as trivial classes.", "quantifier": "every combination of the type traits of a class, every environment of such mixins, every history", "why_tests_cant": "there are 4^5*2 combinations of traits, and the calls depend on the history", "anchors": ["code/dynamix/mixin_info_util.hpp:15-90", "code/dnmx/mixin_info_util.h:17-37", "code/dynamix/common_mixin_info.hpp:15-17", "code/dnmx/mixin_common_funcs.c:9-34"]}
{"id": "C81", "title": "Seen from outside an object is a list of mixins with values and a seal, and every call acts on these as documented", "statement": "Call what a program can see of an object its view: sealed or not, and the mixins of its type with their values in order (or no type). Every call of the object API acts on the views of all objects as a small machine without memory, allocators, callbacks or their order: creating gives the mixins of the type; copying gives the view of the source; moving hands the view over and leaves the source without mixins; copy_matching_from overwrites exactly the values of the shared mixins; clear empties; seal sets the seal; a mutation gives exactly the mixins of the wanted type, and those that were there keep their values unless the caller gave a function to update them. A call that throws leaves every view as it was, but for values of mixins on which assignment or update functions were called. No other object's view changes. In consequence a mixin keeps its value over any sequence of calls (returning or throwing) as long as the object has it and no call writes to it.", "quantifier": "for all environments, programs, histories of calls that respect the contracts, all calls and all their outcomes (returned, threw, made while an exception is in flight), and all sequences of calls", "why_tests_cant": "It is one statement about every operation in every state, with every pattern of failing functions and allocators; tests check one operation with a few types and values each.", "anchors": ["code/dynamix/object.cpp:28-200", "code/dynamix/object_mutation.cpp:87-256", "code/dynamix/object_mutate_ops.cpp", "code/dynamix/mutate-c.cpp", "code/dynamix/object.hpp"]}
{"id": "C82", "title": "What a program writes to a mixin stays there and travels with the object", "statement": "A program gets a mixin of an object and works with it, by code that may return or throw. That changes the value of this mixin of this object only: types, memory, allocators and all other mixins stay, and an exception passes on unchanged. What was written is read back after any sequence of further calls, and it follows the object: moves hand it over, copies have it too, mutations that keep the mixin keep it, as long as no call writes to that mixin.", "quantifier": "for all environments, programs, histories of calls that respect the contracts mixed with uses of mixins, all objects, mixins and sequences of calls", "why_tests_cant": "It is about every sequence of calls between a write and a read, with all failing functions and allocators; tests use a few fixed sequences.", "anchors": ["code/dynamix/object.hpp:135-164", "code/dynamix/object.cpp:28-200", "code/dynamix/object_mutation.cpp:87-256"]}
{"id": "C83", "title": "A message to an object runs the right functions on the right mixins of that object and touches nothing else", "statement": "In a program with objects, sending a unicast message calls exactly one function, that of the preferred listing (bid, then priority, then order) among the mixins the object has now, with the address of the mixin that lists it. A multicast message calls those with the highest bid in the documented order, each with its own mixin. call_next_impl and the next-bidder calls made by a mixin with its own address find the object and call the next listing's function with the mixin of the same object that lists it. If a function throws, the later ones are not called and the exception reaches the sender. Without an implementation the default is called, or the message throws and nothing happened. Only the values of the mixins whose functions were called can change; types, memory, other mixins and other objects stay, and every other guarantee about histories holds after messages.", "quantifier": "for all environments whose functions fit the mixins they are listed in, all programs, all histories of calls (with all failures) in which features are not unregistered while registered mixins have them, all objects, features and outcomes of functions", "why_tests_cant": "It combines the feature tables of every type an object can come to by mutations with the memory layout of the object; tests send messages to a few fixed objects.", "anchors": ["code/dynamix/msg/msg_caller.hpp:16-80", "code/dynamix/msg/next_impl.hpp:13-72", "code/dynamix/object_of.hpp:14-19", "code/dnmx/basic_object.h:38"]}
{"id": "C84", "title": "Objects use domains only to get types and to count objects", "statement": "Whatever a program does with objects (creation, copies, moves, mutations, failures), what reaches the domains are the program's own domain calls, with the outcomes it saw, and in between only requests for types for mutations and counting of objects of types. No call of the object API registers or unregisters anything, changes rules or type classes, or removes a type. So every guarantee about sequences of domain calls holds in programs with objects.", "quantifier": "for all environments, programs, histories of calls with all failures, and all conditions on the program's own domain calls", "why_tests_cant": "It is about all states a domain can get into by all programs with objects; a test can only look at a few registries after a few calls.", "anchors": ["code/dynamix/object.cpp:28-200", "code/dynamix/object_mutation.cpp:60-256", "code/dynamix/domain.cpp:489-547", "code/dynamix/domain.cpp:988-1003"]}
{"id": "C85", "title": "A gradual mutation that lives for a while: what it collects, when it is applied, and what others do meanwhile", "statement": "gradual_mutation (what mutate(obj) returns) starts with the mixins the object has. Its calls and cancel change nothing but the mutation; a call that throws (unknown name, to_back of a mixin that is not in the list) leaves it as it was. Whatever other calls the program makes meanwhile, with this object or others, the list is the one at the start changed by the calls that returned, and names to add are looked up when the call is made. apply gives the object the type that its domain gives for this list: mixins that the object has before and after keep their values; if apply throws, no object changed. If the object has meanwhile come to another domain, apply throws. After apply, even one that threw, and after cancel, and when an exception is in flight, the destructor does nothing; otherwise it applies. Programs with gradual mutations are histories like all others. Full claim, refuted: a mixin that the object has when the mutation is applied, and that the mutation was not told to remove, is still there afterwards.", "quantifier": "for all environments, user functions and failures, all histories before the mutation, all sequences of its calls with arbitrary other fair calls in between, and all outcomes of rules and allocations", "why_tests_cant": "Tests use mutate(obj) as a temporary. That the list and the object may drift apart, and that every drift ends in a consistent object or a clean throw, is a statement about all interleavings with other calls.", "anchors": ["code/dynamix/mutate.hpp:24-112", "code/dynamix/type_mutation.cpp:25-141", "code/dynamix/domain.cpp:489-531", "code/dynamix/object.cpp:242-254"]}
{"id": "C86", "title": "v1 layer: object::copy copies, and has_next_bidder says whether call_next_bidder will find something", "statement": "copy() of a v1 object gives a new object that is not sealed and has exactly the mixins and values of the source, whatever domain the source is in; no other object changes. If it throws (a mixin cannot be copied, a function or an allocation failed), there is no new object and all others are as before. (While an exception is in flight the new object may be empty, as with copy_from.) has_next_bidder called by a mixin is true exactly if a listing of the message in its object has a lower bid than its own; then call_next_bidder calls functions of the object's mixins, exactly one for a unicast message; otherwise it throws and nothing was called.", "quantifier": "for all environments, domains of the layer, histories with all failures, objects and mixins in them, messages, and outcomes of functions", "why_tests_cant": "The guarantee covers every point of failure inside the copy and every feature table an object can come to have; tests copy one object without failures.", "anchors": ["v1compat/code/dynamix/v1compat/object.cpp:8-26", "v1compat/code/dynamix/v1compat/next_bidder.hpp:8-21", "code/dynamix/object.cpp:89-123", "code/dynamix/msg/next_impl.hpp:33-72"]}
{"id": "C87", "title": "Messages whose functions call the library: mutating objects, sending messages, and when this is safe", "statement": "The functions that a message calls may call the library: change, create and destroy objects, register and unregister, send messages to the same object or to others, and call the next implementation or bidders, to any depth. The whole is safe, and comes to the same as the calls made one after the other, if (a) these calls respect their own preconditions, (b) a function uses its own mixin (to work with it, or to call next functions) only while that mixin is still there, and (c) when a message goes on to another function the object still has the type it had when the message was sent. So a function may mutate or destroy its object as the last thing of a unicast message, and a default payload may do so at any time. Functions that do not change the objects that messages go to meet (b) and (c) by themselves; an external mixin that the mutated object keeps meets (b). Condition (c) is needed: a multicast message whose first function mutates the object and does nothing else can be undefined. Which functions are called depends on the type of the object when the message is sent, as for other messages.", "quantifier": "for all environments, all functions with arbitrary programs (which may depend on everything they see), all depths of calls, all failures, all histories before, and also for programs that are not done yet", "why_tests_cant": "Tests have no functions that mutate their objects in messages inside of messages; the document only says 'a definitive maybe'. The exact line between safe and unsafe is a statement about all programs.", "anchors": ["doc/advanced/danger.md:30-42", "code/dynamix/msg/msg_caller.hpp:16-80", "code/dynamix/msg/next_impl.hpp:19-72", "code/dynamix/object_of.hpp:14-19"]}
{"id": "C88", "title": "Texts of exceptions of a domain: they name the right thing, and making them is safe", "statement": "When a call on a domain (registering, unregistering, adding rules, asking for types) throws an exception of the library, its text starts with the name of that domain (or 'unnamed domain') and names in quotes what was wrong: the feature, mixin, type class or rule, for types the mixin that is unregistered, foreign or duplicate together with the mixins of the type, or the rule that failed, or for a clash the feature and two mixins that give it with the same bid and priority; for a mixin of another domain also that domain's name. Making the text reads only domains that exist, provided domains were destroyed after everything registered in them was unregistered and mutations are used while their domain exists. The proviso is needed: registering or unregistering a mixin that was left behind in a destroyed domain is undefined behaviour at any later time and in any domain, rather than an exception, and so are types asked for with it.", "quantifier": "for all environments, names, rules, histories with any domains destroyed, and all calls of domains that throw", "why_tests_cant": "Tests compare a few texts in domains that all live until the end of the test; that no history leads to a text which reads a destroyed domain is a statement about all histories.", "anchors": ["code/dynamix/throw_exception.cpp:15-188", "code/dynamix/domain.cpp:195-243", "code/dynamix/domain.cpp:264-265", "code/dynamix/domain.cpp:327-330", "code/dynamix/domain.cpp:464-490", "code/dynamix/domain.cpp:692-700"]}
{"id": "C89", "title": "The debug dump of a domain shows what is there", "statement": "The debug dump of a domain, with all flags, can be made at any time without undefined behaviour and tells the truth. Reading the features and mixins from the top and skipping as many slots as 'empty slots' lines say gives for every id what get_feature/get_mixin by id give. Each heading has the number of the entries that follow, and for features, mixins and type classes only registered ones are counted. Rules are shown with their number of registrations. Every registered type is shown once, with its mixins, objects, traits, the stored queries that lead to it and exactly the registered type classes that match it. For each feature that one of its mixins lists there is exactly one 'impl' line: with the number of listings, the number of those with the highest bid, and one row for each listing with its mixin, payload, bid and priority, preferred ones first. Queries are shown with the mixins of the type they lead to.", "quantifier": "for all environments, all histories of calls that keep the contract of unregister_feature, and all domains", "why_tests_cant": "The tests do not read dumps, and one could only be compared for single histories; gaps in registries and the table of implementations depend on all that happened before.", "anchors": ["code/dynamix/dbg_dmp.cpp:49-99", "code/dynamix/dbg_dmp.cpp:137-211", "code/dynamix/domain.cpp:864-910", "code/dynamix/dbg_dmp.hpp:21-60"]}
{"id": "C90", "title": "Global definitions may begin in any order, and the program ends cleanly", "statement": "Domains, mixins and type classes that are defined with the macros at namespace scope may be initialized in any order over all translation units, with calls to domains in between: no domain or mixin data is used before it is made, each definition registers as if the domain had always been there, and the mixins of a domain and its rules with their counts are the same for every order. When the program ends and the only objects left are global ones that were made with their type and kept it, everything is destroyed without undefined behaviour and without termination; a domain is destroyed after all definitions in it have ended, when of the defined mixins and type classes none and of the rules only the canonicalize rule are left in it; data of a mixin is destroyed after it was unregistered. With another object left whose type has a defined mixin the end is undefined.", "quantifier": "for all sets of definitions, all orders of their initialization and all calls in between that keep the contract (orderly), and all programs whose objects at the end are global and have the type they were made with", "why_tests_cant": "A test program has one order of initialization, chosen by the linker, and what happens after main is not observed by test frameworks.", "anchors": ["code/dynamix/define_domain.hpp:7-13", "code/dynamix/define_mixin.hpp:17-48", "code/dynamix/define_type_class.hpp:10-26", "code/dynamix/mixin_info_data.cpp:9-21", "code/dynamix/globals.hpp:13-25", "code/dynamix/object.cpp:24-45"]}

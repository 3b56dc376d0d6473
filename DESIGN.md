# DynaMix: formal model and proofs (Rocq/Coq 8.16.1)

The model follows `/repo` (iboB/dynamix, read as text, never built or run) function by function.
Every definition of the model cites the file and lines it models and says where it simplifies.
The properties are in `properties.jsonl`, their status in `MANIFEST.json`, tried wrong programs in `seeded/LOG.jsonl`.

## Layout

| files (rocq/theories) | content |
|---|---|
| `Base.v`, `Sv.v`, `Info.v` | results (`Ok`/`Throw`/`Ub`), string views, static descriptors of mixins, features, rules, type classes |
| `Registry.v` | `basic_register_l`, `basic_unregister_l`, getters, type classes |
| `TypeMut.v`, `Rules.v` | `type_mutation`, rule map, `apply_mutation_rules_l`, common and v1 rules |
| `TypeBuild.v`, `TypeQuery.v`, `MixinInfo.v` | `create_type`: validity, ftable passes, layout, sparse indices; the queries of `type`; buffers of external mixins |
| `TypeBuf.v` | `create_type` again, with the bytes of the one buffer of a type (C78) |
| `Resource.v` | the default memory resource of builds without `std::pmr` (C79) |
| `Class.v` | mixin infos made from C++ classes (`common_init_mixin_info`) and by the macros for C (C80) |
| `Domain.v` | several domains that share infos: all domain operations as one function `dstep`; histories are `run` |
| `Msg.v` | unicast, multicast, next implementer/bidder calls, v1 combinators |
| `Heap.v` | blocks of bytes with living mixin instances, allocators, calls of user functions with an arbitrary outcome stream, event log, and what could be seen at each event (`s_seen`; nothing reads it, it is for C76/C77) |
| `Mutation.v`, `Object.v` | `object_mutation`, all `object` operations, `mutate`, `mutate_to`, `gradual_mutation`, the C functions `dnmx_mutate*`; one function `op_run`; histories are `orun` |
| `ObjMsg.v` | the message callers run on objects: lookups of `Msg.v`, then calls of the functions with the mixins of the object (C83) |
| `Reenter.v` | messages whose functions are programs that call the library and send messages themselves (C87) |
| `GradMut.v` | `gradual_mutation` that lives while other calls are made, with `apply` and `cancel` (C85) |
| `V1Obj.v` | `copy` of v1 objects, v1 next bidders (C86) |
| `V1Rules.v` | the rule slots of the v1 compatibility layer |
| `Conc.v` | threads: interleavings of the critical sections of domain calls |
| `Locks.v` | which locks a call takes and in which order |
| `Define.v` | mixin definitions (`mixin_info_data`): builder, `register_in`, `unregister_from`, the instance's destructor |
| `CApi.v` | the C interface over all of this: handles, result codes, exceptions caught and not caught |
| `Oom.v` | domain operations with failing allocations in the registries' containers |
| `Life.v` | `domain_traverse`, domains that end |
| `Globals.v` | `define_domain.hpp`, `define_mixin.hpp`, `define_type_class.hpp`: variables of static storage duration, their beginning in any order and their end |
| `Dump.v` | `dbg_dmp.cpp`: what the dump of a domain shows, line by line (not the characters, sizes of buffers and addresses) |
| `Texts.v` | `throw_exception.cpp`: the texts of the exceptions of domains, and which domains are read for them |
| `Common.v` | memory as bytes; the common functions for mixins that are only bytes (`mixin_common_funcs.c`) run over the events |
| `SpecAbs.v` | objects as lists of mixins with values: an abstract machine that all object operations refine (C81), and how values travel over sequences of calls (C82) |
| `Spec*.v` | small specifications used in theorem statements, independent of the helpers of the model |
| `*Proofs*.v`, `*Theorems*.v`, `BaseLemmas.v` | lemmas |
| `Ex*.v` | concrete environments and histories for the examples |
| `Props*.v` | the property theorems `Cnn_...`, each with `Print Assumptions`, and `Cnn_example...` that their hypotheses are met by non-trivial cases |

## Conventions

* Undefined behaviour is an outcome: `Ub`, with a kind. Asserts of the code are `Ub` as well (a release build goes on in an undefined way).
  The exception is `assert(m_complete)` in `~object_mutation`, where a release build has defined behaviour, which is modelled.
* Exceptions are the outcome `Throw e`; the state at the throw is kept, so partial effects are visible.
* Infos are identified by their address (`nat`). Their constant attributes come from an environment record (`env`); the fields that the
  library writes (`id`, `dom`) are part of the state. The user's promise not to change registered infos is thus built in.
* Ids and indices are `option nat`, `None` being the invalid value `~0u`. Registries with 2^32-1 entries are out of scope.
* Byte sizes are `N` with explicit wrap-around at 2^32. Histories of objects require that the types created are small enough
  not to wrap (`types_small`, part of `fair`); what happens otherwise is C21/C22.
* User callbacks are arbitrary functions: rules are functions from (name lookup, mixin list) to a result; init, copy, move and compare functions
  and allocations take success, error or value from an arbitrary stream (`user`). They do not re-enter the library; functions of messages may (`Reenter.v`).
* Types get a fresh identity at creation. Addresses of freed types are not reused in the model; a use of a freed type is `Ub`.
* Histories of objects contain steps in which the program works with a mixin (`OUse`, object.hpp:142-149): it gets the mixin by index and runs code of its own on it, which gives it a new value or throws. What such code does beyond that mixin (calling the library again) is a further step of the history.
* Values of mixin instances are abstract (`nat`): construction gives the value the user function chooses, copies copy, moves move. `Common.v` has the bytes: the events of a history are run over memory (C75).
* A mixin may have no data (`void` in C++: size and alignment 0); the layout theorems say what holds for it.
* Threads: a critical section is one atomic step, since the code only touches the registries under its mutexes; two steps of
  one call may have steps of other threads in between. Reads and writes of infos' `id`/`dom` happen inside the sections.

## Contracts

* `fair` (SpecObj.v): the calling contract of object operations. Objects are made before and not after they are used; an object that lost
  its type (created or copied while an exception was in flight) is only destroyed or asked; types belong to the object's domain; and the exclusions for
  which refutations show that the code does wrong: mutation to the empty type by `object_mutation` (C47), two ops for one mixin (C48),
  moving an object onto itself with fallback (C43), manual `finalize`/`rollback` of `object_mutation` followed by more steps.
* `tidy` (SpecDefine.v): a mixin is defined by one definition at a time and its rules are only added by definitions.
* `regular_rules`, `regular names` (SpecOrd.v): a null view is empty, and names that start at one address are the same string (needed since
  `dnmx_sv_cmp` compares addresses first; C60).
* `quiet` (SpecConc.v): no call changes what another running call relies on between its two locks.

## What is modelled, what is not

Modelled: `domain.cpp` (all operations, except context and settings beyond the two flags that change behaviour),
`type.cpp`, `type.hpp`, `type_mutation.cpp`, `object.cpp`, `object.hpp`, `object_mutation.cpp/.hpp`, `mutate*.hpp`, `mutate-c.cpp`, `object-c.cpp`, `domain-c.cpp`, `type-c.cpp`, `type_mutation-c.cpp` (those functions
that change something or can fail), `gradual_mutation`,
`bits`/`msg` callers and `next_impl`, `mixin_info_data.*`, `mixin_info_util` (buffers, and infos made from classes), `common_mutation_rules`, `v1compat` rules, combinators, `copy` and next bidders.

Not modelled: exception texts of objects (those of domains are in `Texts.v`) and types of the C++ hierarchy (only which error is given), the characters of the `dbg_dmp` output (its locks and what it shows are), the global
getters that connect C++ types with infos (the lifetimes of what they return are in `Globals.v`), type names, `pmr` resource plumbing (only which allocator serves which block, and the size asked by the default resource), v1 define macros, lifetime functions of mixins (constructors, destructors, comparison and so on), rules and allocators that re-enter the library,
memory order below mutexes, failing allocations inside the registries' own containers in histories of objects (there only the allocation of a new type can fail;
the others are in `Oom.v`, C71), failing allocation of exception texts, registries with 2^32-1 or more entries.

## Findings

Each is a `_refuted` theorem with a concrete witness in the model unless said otherwise.

1. `register_type_class` after an `unregister_type_class` writes through a pointer to a dead loop variable (C07).
2. `unregister_mixin` drops types and queries by id before it checks that the mixin is its own; with a mixin of another domain it throws, but types of this domain are gone (C05).
3. A query with a dependency mixin and no rules gives the "cyclic" error (C12); with rules the answer can be unstable (C11), and `attaches_to` can be missed (C55).
4. `register_mixin` keeps stored queries: a rule that looks up names gives stale answers (C13).
5. `has(info)` and `implements` compare ids only: true for mixins/features of another domain (C20, C23). `unregister_feature` leaves ftables, so a reused id answers for the old feature (C23).
6. 32-bit sums of sizes wrap: two 2 GiB mixins get a 48 byte buffer (C21, C22).
7. If a mixin of a type lists a feature twice, a chain of next implementers never ends (C27): the search for the next one starts from the first listing of the mixin.
8. `dnmx_sv_cmp` takes views at one address for equal: not an order (C60, C10, C16, C30).
9. A mutation to the empty type by `mutate`/`mutate_to` with ops is not applied, leaks a block and counts an object too many (C47).
10. Two ops for one mixin in one mutation construct in the buffer of the next mixin (C48). `add_mixin_op_with_func_by_name` names a member that does not exist (does not compile when used; by reading).
11. `object_mutation::update_at` accepts the index one past the end (C49); `update_next` on an empty target reads out of bounds (by reading; excluded by `fair`).
12. While an exception is in flight (`std::uncaught_exceptions`), mutations roll back and report success; new objects have no type (C51).
13. `get_type` lets go of its lock between lookup and store: stale queries after a concurrent rule change (C57), dangling types after a concurrent collection or unregistration (C58).
14. `dbg_dmp` takes a shared lock twice: deadlock with a waiting writer (C59).
15. `move_matching_from` of an object to itself with the fallback uses a destroyed instance (C43).
16. v1 `substitute` adds its target although it is there; `get_type` then fails (C53).
17. `mixin_info_data::register_in` that throws leaves its rules (C66); `unregister_from` is `noexcept` but calls what throws (C66).
18. Generated rule names sort "rule 10" before "rule 2" (C68).
19. An object that was moved from stays sealed (C65, remark).
20. `dnmx_object_reset_type(sealed object, NULL)`, `dnmx_unregister_mixin` and `dnmx_unregister_feature` let C++ exceptions out into C (C69). By reading: so do
    `dnmx_create_domain` and `dnmx_create_mixin_allocator` (`operator new` without try); `dnmx_object_implements_strong` and its `_by_name` variant are declared in `object.h` and defined
    nowhere; `dnmx_type_mutation_add_if_lacking` returns false both for "is there" and for failure.
21. A domain that is destroyed leaves `id` and `dom` in the infos of its mixins and features. They can never be registered in another domain, and registering another mixin
    with such a feature reads outside of the new domain's array (C73). The header calls unregistering optional.
22. `copy_from` and `copy_matching_from` of an object to itself give the copy function target = source; for plain mixins that is `memcpy` with overlapping bytes, undefined
    (C75). By reading: `move_matching_from` of an object to itself (without fallback) does the same and then sets the mixin to 0.
23. `danger.md:25` says that in constructors called for a copy the type of the object may be touched. In `object::copy` and `object(type)` the object has no type until all
    mixins are made; `get_type` asserts (C76_made).
24. `danger.md:28` says that external mixins are safe to access during a mutation. `finalize` destroys and frees removed external mixins by index, in between the moves of others, and the
    object still has its old data then (C77).
25. The default memory resource without `std::pmr` cuts sizes to 32 bits and rounds up with wrap-around: 2^32 - 1 bytes with alignment 8 give a block of 0 bytes, also for an object
    whose layout is correct (C79). Buffers of types of 4 GiB or more (2^30 mixins registered) get too little memory as well (C78_wide).
26. A class with a destructor and trivial assignments (say `struct H { int fd; ~H(); };`) gets `dnmx_mixin_common_move_func` as its move assignment. It sets the source to 0 although trivial
    assignment leaves the source as it is, and the destructor runs on the zeros later: after `move_matching_from` of such a handle, handle 0 is closed (C80).
27. `gradual_mutation` keeps the mixins the object had when it was made. Mutations of the object by others until `apply` are undone: their mixins are destroyed and the ones they
    removed are made again (C85). Used as a temporary, as documented, this cannot happen unless arguments of its calls mutate the object.
28. The texts of exceptions read the domain of a mixin (`throw_exception.cpp:126,136,160`). If that domain was destroyed with the mixin still registered, then registering the mixin
    elsewhere, unregistering it, or asking for a type with it is a use after free instead of an exception (C88). The text for unregistering a foreign mixin calls it a feature (line 134).
29. By reading, in `dbg_dmp`: `dbg_dmp(std::ostream&, const object&)` is declared (`dbg_dmp.hpp:61`) and defined nowhere; the dump of a domain shows its type classes without a traversal
    (`dbg_dmp.cpp:201`), so that the flag `dnmx_tc_dmp_matching_types` has no effect; the quote before the name of a type class is not closed (line 102).
30. An object in a global variable that is made before a definition of a mixin (in another translation unit) and gets a type with it later, is destroyed after the definition: the end of the
    definition unregisters the mixin while the object lives, undefined (C90_objects_refuted).

## Per property

Every theorem below is "Closed under the global context" (no assumptions).

| id | property | status | theorems | what is missing or remarkable |
|---|---|---|---|---|
| C01 | Mixin ids are unique and lookup by id is the inverse of registration | proved | `C01_mixin_ids` (PropsReg.v) |  |
| C02 | Feature ids are unique and lookup by id is the inverse of registration | proved | `C02_feature_ids` (PropsReg.v) |  |
| C03 | Registration takes the least free id and never moves other ids | proved | `C03_least_free_mixin_id`, `C03_least_free_feature_id`, `C03_mixin_ids_stable`, `C03_feature_ids_stable` (PropsReg.v) |  |
| C04 | Names are unique and lookup by name is exact | proved | `C04_mixin_names`, `C04_feature_names` (PropsReg.v) |  |
| C05 | A failing registration or unregistration has no effect on what is registered | partial | `C05_failed_register`, `C05_failed_unregister_feature`, `C05_failed_unregister_partial`, `C05_failed_unregister_refuted` (PropsReg.v) | Registration and unregistering a feature: proved. Unregistering a mixin: proved when the mixin is registered nowhere (only stored queries naming it go). Refuted for a mixin registered in another domain: the call throws but drops types of this domain. |
| C06 | Unregister undoes register | proved | `C06_unregister_undoes_register` (PropsReg.v) |  |
| C07 | Registered type classes are found | partial | `C07_type_classes_partial`, `C07_register_after_unregister_refuted` (PropsReg.v) | Proved for histories without undefined behaviour. Refuted in general: registering a type class after one was unregistered writes through a dangling pointer. |
| C08 | A mixin belongs to at most one domain | proved | `C08_one_domain` (PropsReg.v) |  |
| C09 | Mutation rules are reference counted | proved | `C09_rule_counts` (PropsDom.v) | Under the stated precondition on rule names. |
| C10 | Active rules are applied in priority-then-name order, whatever order they were added in | proved | `C10_rule_order`, `C10_any_order`, `C10_rule_order_refuted` (PropsDom.v) | Proved for rules whose names are regular (a null view is empty, names at one address are equal strings). C10_rule_order_refuted: without that, dnmx_sv_cmp takes two names at the same address for equal and the order by name fails. |
| C11 | A type returned by get_type is stable under the rules | partial | `C11_stable_partial`, `C11_stable_refuted` (PropsDom.v) | C11_stable_partial covers histories in which stored answers are current (pure rules, or all registrations first) and, for queries naming dependency mixins, also the second case in which the answer is the query itself. C11_stable_refuted: in that case the type need not be stable under the rules. |
| C12 | Rule application always ends within the documented bound | partial | `C12_bounded`, `C12_cyclic_partial`, `C12_cyclic_refuted` (PropsDom.v) | C12_cyclic_partial needs a query without dependency mixins. C12_cyclic_refuted: with no rules and a dependency mixin in the query the cyclic error is given. |
| C13 | Stored queries are invisible | partial | `C13_cache_partial`, `C13_cache_canonical`, `C13_cache_refuted` (PropsDom.v) | C13_cache_partial: rules that do not look at the registry, or registrations before the first query; C13_cache_canonical: any history if only the canonicalize rule is active. C13_cache_refuted: register_mixin does not drop stored queries, so a rule that looks up a name gives stale answers. |
| C14 | One type per mixin list | proved | `C14_one_type_per_list`, `C14_calls` (PropsDom.v) |  |
| C15 | A type only has registered mixins of its own domain, each once | proved | `C15_types_valid`, `C15_returned_type_valid` (PropsDom.v) |  |
| C16 | Canonical domains ignore the order of mixins | proved | `C16_canonical`, `C16_canonical_refuted` (PropsDom.v) | Proved for regular names; C16_canonical_refuted shows that with overlapping names the order by name fails. |
| C17 | Garbage collection removes exactly the unused types | proved | `C17_collection` (PropsDom.v) |  |
| C18 | Unregistering a mixin removes exactly the types and queries involving it | proved | `C18_unregister_mixin` (PropsDom.v) |  |
| C19 | A failing get_type changes nothing | proved | `C19_failed_get_type`, `C19_failed_get_type_mutation` (PropsDom.v) |  |
| C20 | index_of, has and lacks are exact | proved | `C20_index_of`, `C20_index_of_name`, `C20_foreign_refuted` (PropsType.v) | Lookup by id and by name for all ids and names; has(info) for mixins of the domain or of none. C20_foreign_refuted is an extra: has(info) of a mixin registered in another domain compares ids only and may be true. |
| C21 | The object buffer layout is sound | proved | `C21_layout`, `C21_overflow_refuted` (PropsType.v) | Under the stated precondition; C21_overflow_refuted shows that two 2 GiB mixins give a 48 byte buffer. |
| C22 | The buffer of an external mixin is sound | proved | `C22_external_buffer`, `C22_overflow_refuted` (PropsType.v) | Under the stated precondition; C22_overflow_refuted shows the wrap-around. |
| C23 | A type implements exactly the features its mixins list | partial | `C23_implements`, `C23_implements_name`, `C23_id_reuse_refuted`, `C23_foreign_refuted` (PropsMsg.v) | Proved for features registered in the domain of the type, under the contract of unregister_feature. Refuted without the contract (id reuse) and for features of another domain (ids collide). |
| C24 | Unicast picks highest bid, then lowest priority value, then last mixin | proved | `C24_unicast` (PropsMsg.v) |  |
| C25 | Multicast executes each top bidder once in the documented order | proved | `C25_multicast` (PropsMsg.v) |  |
| C26 | Feature clashes are detected exactly | proved | `C26_clash`, `C26_clash_no_rules`, `C26_no_clash_in_types` (PropsMsg.v) | For queries whose type is created by the call, with any active rules (C26_clash) and without rules. |
| C27 | The next-implementer chain visits every implementer once | partial | `C27_next_implementer`, `C27_next_implementer_refuted`, `C27_first_listing`, `C27_ends_exactly` (PropsMsg.v, PropsNext.v) | The statement holds exactly for the types in which no mixin lists the feature twice (C27_ends_exactly): then the chain visits every listing once, in order, and ends; otherwise it never ends (C27_next_implementer_refuted is such a case). C27_first_listing: for any listings, the next implementer is the one after the mixin's first listing in the row. |
| C28 | The next bidder set is the set of implementers with the next lower bid | proved | `C28_next_bidder_set`, `C28_first_listing`, `C28_not_implementer` (PropsMsg.v, PropsNext.v) | C28_next_bidder_set if mixins list a feature once; C28_first_listing and C28_not_implementer for any listings (the bid of a mixin is that of its first, highest, listing). |
| C29 | Default payloads are used exactly when nothing implements the message | proved | `C29_defaults` (PropsMsg.v) |  |
| C30 | Type comparison is a total order | proved | `C30_compare`, `C30_compare_refuted` (PropsType.v) | Under the stated precondition; C30_compare_refuted shows a cycle of three types otherwise. |
| C31 | Type traits predict what objects can do | proved | `C31_traits`, `C31_create`, `C31_copy`, `C31_assign`, `C31_compare` (PropsObj.v) | Creation and copying outside of unwinding (see C51). copy_assignable: copy_from between objects of the same type never throws for a missing function. |
| C32 | type_mutation operations do what they say | proved | `C32_add`, `C32_remove_to_back`, `C32_by_name`, `C32_add_by_name`, `C32_dedup`, `C32_implements` (PropsType.v) |  |
| C33 | Every mixin instance is constructed once and destroyed once | proved | `C33_legal`, `C33_held`, `C33_counts`, `C33_end` (PropsObj.v) | C33_legal holds for every program, also one that breaks contracts, as long as no call had undefined behaviour; the others for programs that keep the contracts (fair). Mixins without destroy function need no destruction and are not counted. |
| C34 | Every allocation is freed exactly once, by the same allocator with the same size | proved | `C34_counts`, `C34_matching`, `C34_end`, `C34_sizes` (PropsObj.v) |  |
| C35 | A failing mutation leaves the object as it was | proved | `C35_failed` (PropsObj.v) | All mutation functions of C++ and C; with update functions given by the caller (C API only) the values of common mixins may change, see C50_failed. |
| C36 | A mutation keeps common mixins | proved | `C36_keeps` (PropsObj.v) |  |
| C37 | A successful mutation gives exactly the target type | proved | `C37_target`, `C37_changes` (PropsObj.v) |  |
| C38 | object_of finds the owning object | proved | `C38_object_of`, `C38_one_owner` (PropsObj.v) |  |
| C39 | Moving an object transfers everything and runs no mixin code | proved | `C39_construct`, `C39_assign` (PropsObj.v) |  |
| C40 | A sealed object cannot be changed | proved | `C40_sealed` (PropsObj.v) | Nothing changes and nothing is called; the call throws unless there is nothing to do (mutate_to with ops or mutate to the type that the object has; move assignment to itself; a gradual mutation given up during unwinding). |
| C41 | copy makes an independent equal object or nothing | proved | `C41_copy`, `C41_failed` (PropsMut.v) |  |
| C42 | copy_from gives the source's type and values, or keeps the type | proved | `C42_copy_from`, `C42_failed` (PropsMut.v) | On failure common mixins are where they were but may have been assigned already. |
| C43 | Matching copies and moves only touch common mixins | partial | `C43_copy_matching`, `C43_move_matching_partial`, `C43_self_refuted` (PropsMut.v, PropsMut3.v) | C43_copy_matching in full. C43_move_matching_partial excludes move_matching_from of an object to itself with the fallback to destruction and construction (contract fair); C43_self_refuted shows that it would be false. |
| C44 | Object equality and comparison are consistent | proved | `C44_equals`, `C44_compare` (PropsMut.v) |  |
| C45 | num_objects counts the objects of a type | proved | `C45_num_objects` (PropsMut.v) |  |
| C46 | The type of a living object stays valid | proved | `C46_type_valid` (PropsMut.v) |  |
| C47 | Mutating to the empty type empties the object | partial | `C47_emptied_partial`, `C47_clear`, `C47_destroyed`, `C47_mutate_refuted` (PropsMut.v) | Proved for reset_type, mutate_to without ops, gradual mutation, clear and the destructor. C47_mutate_refuted: mutate, mutate_to with ops, dnmx_mutate and dnmx_mutate_to report success but the object keeps its type and mixins, a block of size 0 leaks and the empty type counts an object; with asserts enabled the program aborts. |
| C48 | Init overrides initialise the mixin they name | partial | `C48_overrides_partial`, `C48_applied_partial`, `C48_twice_refuted` (PropsMut2.v) | Proved for lists of ops that name each mixin at most once. C48_twice_refuted: a second op for the same mixin constructs it in the buffer of the next mixin. |
| C49 | Piecewise mutation respects the order | partial | `C49_exact`, `C49_updates_partial`, `C49_failed`, `C49_past_end_refuted` (PropsExact.v, PropsMut2.v) | Proved except for an index equal to the number of mixins: C49_past_end_refuted shows that update_at accepts it silently. On failure the update functions called before have had their effect on common mixins. C49_exact: exactly which lists of indices are accepted. |
| C50 | C overrides are applied to their mixin | proved | `C50_applied`, `C50_failed` (PropsMut2.v) | dnmx_mutate_to. A failure without failing call is a sealed object or a new mixin without init function and override (may_throw). |
| C51 | A mutation which reports success has been applied | partial | `C51_applied_partial`, `C51_created_partial`, `C51_unwinding_refuted` (PropsMut2.v) | Proved if no exception is in flight. C51_unwinding_refuted: std::uncaught_exceptions() makes the destructor of object_mutation roll back and report nothing; a new object even gets no type. |
| C52 | The v1 combinators compute the fold of the results | proved | `C52_combinators` (PropsMsg.v) | For combinators in their initial state; integers are unbounded in the model. |
| C53 | The v1 rules have their documented effect and settle | proved | `C53_mutually_exclusive`, `C53_mandatory`, `C53_deprecated`, `C53_substitute`, `C53_bundled`, `C53_dependent`, `C53_substitute_present_refuted` (PropsType.v) | C53_substitute_present_refuted is an extra: substitute adds the target even if it is present, and get_type then fails. |
| C54 | v1 rule ids denote the rule until it is removed | proved | `C54_ids`, `C54_active` (PropsV1.v) |  |
| C55 | attaches_to and also_adds hold in every type | partial | `C55_attaches_partial`, `C55_attached_only_with_primary`, `C55_attaches_refuted`, `C55_named_dependency_refuted` (PropsType.v) | C55_attaches_partial excludes other active rules that remove the primary or the attached mixin, and queries naming dependencies if the primary is one. Both exclusions are necessary (two refutations). The second half (attached only with a primary) is proved in full. |
| C56 | Concurrent get_type calls agree | proved | `C56_linearizable`, `C56_agree` (PropsConc.v) | C56_linearizable is more general: any calls, as long as no call changes what another running one relies on. C56_agree is the English claim. |
| C57 | Concurrent rule changes do not leave stale results | partial | `C57_quiet_partial`, `C57_stale_refuted` (PropsConc.v) | Proved when no rule change happens while another thread is between its two locks in get_type (C57_quiet_partial). Refuted otherwise: the query is stored after the rule change cleared the queries, and stays (C57_stale_refuted). |
| C58 | Concurrent collection does not invalidate a type being returned | partial | `C58_quiet_partial`, `C58_dangling_refuted`, `C58_unregister_refuted` (PropsConc.v) | Proved when no collection or unregistration happens while another thread is between its two locks in get_type. Refuted otherwise: the query is stored with a type that was destroyed (C58_dangling_refuted), or a type is stored with a mixin that is no longer registered (C58_unregister_refuted). |
| C59 | Domain operations never deadlock | partial | `C59_no_deadlock`, `C59_dump_partial`, `C59_dump_refuted` (PropsLocks.v) | Proved for all domain calls, whether or not readers of a mutex wait for waiting writers. With dbg_dmp of a domain, which locks the type registry shared twice: proved where they do not wait, refuted where they do (C59_dump_refuted). |
| C60 | String view comparison is a total order on contents | partial | `C60_exact`, `C60_sv_cmp_partial`, `C60_sv_cmp_refuted` (PropsExact.v, PropsType.v) | Proved for views of different address or same contents; refuted for views of different length at the same address. C60_exact: these are the only wrong ones (if and only if). |
| C61 | All ways to ask for a mixin agree | proved | `C61_queries` (PropsMut2.v) |  |
| C62 | Operations do not touch other objects | proved | `C62_frame` (PropsMut2.v) |  |
| C63 | Errors are reported exactly if something failed | proved | `C63_honest` (PropsMut2.v) | For all object operations, also outside of the contracts. |
| C64 | Programs that keep the contracts have no undefined behaviour | proved | `C64_no_ub` (PropsMut2.v) |  |
| C65 | The seal and the allocator of an object change only as asked | proved | `C65_seal`, `C65_created`, `C65_there` (PropsMut3.v) | An object that was moved from stays sealed: usurp does not reset the seal of its source. |
| C66 | Ending a definition undoes exactly what it did | proved | `C66_definitions`, `C66_end`, `C66_failed_refuted`, `C66_noexcept_refuted` (PropsDef.v) | The histories have definitions that succeed. C66_failed_refuted: a definition that throws leaves its rules in the domain. C66_noexcept_refuted: unregister_from alone terminates the program if the mixin is not registered there (it is noexcept and unregister_mixin throws); the destructor checks first. |
| C67 | The mixin builder says what it was told, without dangling references | proved | `C67_built`, `C67_names` (PropsDef.v) |  |
| C68 | Rules without a name are applied in the order in which the builder got them | partial | `C68_order_partial`, `C68_order_refuted`, `C68_exact` (PropsDef.v, PropsExact.v) | Holds for at most ten rules: the eleventh is named ... rule 10, which sorts before ... rule 2 (C68_order_refuted). C68_exact: in the order of the calls if and only if there are at most ten. |
| C69 | The C functions report failure by their result, never by an exception | partial | `C69_lets_out_partial`, `C69_reset_refuted`, `C69_unregister_refuted` (PropsC.v) | Exact: three calls let exceptions out. dnmx_object_reset_type(sealed, NULL) (C69_reset_refuted), dnmx_unregister_mixin and dnmx_unregister_feature of what is not registered there (C69_unregister_refuted). Creation of domains and allocators (operator new without try) is not part of the model. |
| C70 | C programs do what the C++ calls do | proved | `C70_same`, `C70_mutations`, `C70_answers`, `C70_types`, `C70_compare`, `C70_is_of`, `C70_edits`, `C70_mutation_life`, `C70_history` (PropsC.v) |  |
| C71 | A domain call that runs out of memory can be made again | proved | `C71_enough_memory`, `C71_left_behind`, `C71_retry`, `C71_sound` (PropsOom.v) | Not modelled: memory running out while an exception with a text is being made. |
| C72 | Traversal visits exactly what is there | proved | `C72_elements`, `C72_types`, `C72_rules` (PropsLife.v) | The order of visits is part of the theorem for none of them. |
| C73 | Domains are independent, and infos outlive them | partial | `C73_isolated`, `C73_clean_end_partial`, `C73_lost_mixin`, `C73_lost_feature`, `C73_unregister_optional_refuted` (PropsLife.v) | First sentence: proved (C73_isolated). Second: refuted. ~domain leaves ids and domains in the infos; the mixins can then be registered nowhere (C73_lost_mixin, C73_lost_feature), and a new mixin with such a feature is undefined behaviour. Holds if all is unregistered before (C73_clean_end_partial). In C73_lost_mixin the text of the exception is left out; with it the call is undefined (C88_lost). |
| C74 | Mixins are in allocated, aligned memory and never overlap | proved | `C74_in_bounds`, `C74_apart`, `C74_array`, `C74_objects`, `C74_pointers` (PropsPlace.v) | Proved for mixins whose infos were filled by set_size_alignment without 32-bit overflow (C22) and for types whose layout fits 32 bits (part of fair; C21 refutes the general case). equals and compare are not logged; they get pointers as in C74_objects. |
| C75 | Every mixin has its own bytes, and the common functions keep them | proved | `C75_bytes`, `C75_new`, `C75_copy`, `C75_mutation`, `C75_compare`, `C75_self`, `C75_self_refuted` (PropsCommon.v) | User functions are any functions that write no bytes but those of their mixins. The common functions must not get one mixin as target and source (memcpy): C75_self shows that it is undefined then, C75_self_refuted that copying an object to itself does it (finding). |
| C76 | What functions of mixins see of objects while they are called | proved | `C76_log`, `C76_object`, `C76_questions`, `C76_others`, `C76_building`, `C76_destroy`, `C76_made`, `C76_memory` (PropsSeen.v) | User functions do not re-enter the library to change objects; they see states. C76_made contradicts danger.md:25 for object::copy (finding 23). |
| C77 | External mixins can be used during a mutation | partial | `C77_kept`, `C77_external_refuted` (PropsSeen.v) | Proved for external mixins that the object keeps, and for all mixins if the mutation fails (C77_kept). Refuted for external mixins that the mutation removes: they may be destroyed and freed while move and destroy functions run, and the object still gives the pointer (C77_external_refuted). |
| C78 | A type and its tables are one buffer | proved | `C78_buffer`, `C78_throws`, `C78_wide` (PropsBuf.v) | Refinement: TypeBuf.v has create_type with bytes, C78_buffer relates it to TypeBuild.v. C78_wide shows that the bound of 4 GiB is needed. Pointers to infos are the infos. |
| C79 | The default memory resource gives as much memory as asked for | partial | `C79_exact`, `C79_allocate`, `C79_object`, `C79_large_refuted` (PropsExact.v, PropsRes.v) | Proved if size plus alignment is less than 2^32. Refuted otherwise (C79_large_refuted): the arguments are cut to 32 bits and the rounding wraps, and the caller gets a block of 0 bytes or of the size modulo 2^32. C79_exact: enough if and only if size plus alignment is at most 2^32. |
| C80 | A mixin made from a class does what the class does | partial | `C80_functions`, `C80_c_macros`, `C80_types`, `C80_calls`, `C80_new`, `C80_copy`, `C80_mutation`, `C80_own_partial`, `C80_own_refuted` (PropsClass.v) | The type traits of a class are taken as given. C80_own_partial: mixins of classes with a destructor are changed by members of the class only, except by trivial assignments; C80_own_refuted shows what that exception does (finding 26). Members added by hand to an info (adding compare, say) are not covered. |
| C81 | Seen from outside an object is a list of mixins with values and a seal, and every call acts on these as documented | proved | `C81_view`, `C81_simulates`, `C81_persists` (PropsAbs.v) | SpecAbs.v is the machine on views (effect, no_effect, behaves); C81_simulates proves that every call refines it, C81_view says what a view is in terms of the queries of the object, C81_persists follows values over runs of calls. |
| C82 | What a program writes to a mixin stays there and travels with the object | proved | `C82_use`, `C82_journey`, `C82_read_back` (PropsUse.v) | A use of a mixin is a step of a history (OUse in Object.v): get by index, then code of the program that may throw. C82_use is one use, C82_journey follows a value over moves and copies (journey, passes in SpecAbs.v), C82_read_back puts both together. All other history theorems cover such steps too. |
| C83 | A message to an object runs the right functions on the right mixins of that object and touches nothing else | proved | `C83_unicast`, `C83_multicast`, `C83_default`, `C83_next`, `C83_bidders`, `C83_delivered`, `C83_history` (PropsSend.v) | The message callers run on objects (ObjMsg.v). A message is shown to be a sequence of uses of mixins (carried_out in SpecSend.v): C83_unicast, C83_multicast, C83_next and C83_bidders say of which listings; C83_delivered says what that does and C83_history that histories go on. payloads_fit: every function is listed in the infos of mixins it can be called with. listed_once and features_kept are the conditions of C27/C28 and C23. Functions that call the library from inside a message are in C87. Arguments and results are not modelled. |
| C84 | Objects use domains only to get types and to count objects | proved | `C84_domains`, `C84_registries` (PropsSend.v) | C84_domains: for every condition on domain calls that holds of those made by objects, a history of objects is a run of the domain (run_where) whose calls are the program's own, in order and with their outcomes, mixed with calls made by objects. C84_registries: one call of the object interface. |
| C85 | A gradual mutation that lives for a while: what it collects, when it is applied, and what others do meanwhile | partial | `C85_begin`, `C85_quiet`, `C85_list`, `C85_apply`, `C85_calls`, `C85_foreign`, `C85_end`, `C85_history`, `C85_one_go`, `C85_keeps_refuted` (PropsGrad.v) | The mutation as a live object (GradMut.v): C85_begin, C85_quiet, C85_list (edit and drafted in SpecGrad.v spell the calls out), C85_apply, C85_calls (apply is get_type and reset_type, with their outcome) and C85_foreign, C85_end, C85_history, and C85_one_go: without other calls in between it is the step OGradual of histories. The last claim is refuted (C85_keeps_refuted): the list is a snapshot, so mixins that others added meanwhile are removed and those that others removed come back with new values. After a rule that threw inside apply the list is arbitrary (junk); that matters only if apply is called again. |
| C86 | v1 layer: object::copy copies, and has_next_bidder says whether call_next_bidder will find something | proved | `C86_copy`, `C86_history`, `C86_next_bidder` (PropsV1Obj.v) | v1_copy is shown to be the calls OEmpty, OCopyFrom and, if that throws, ODtor with its outcome (C86_history); C86_copy says what objects are before and after. The object is constructed in place (the return value is not moved). C86_next_bidder is over has_next_bidder_set/call_next_bidder_set/top of C28 and C83, with the same conditions. |
| C87 | Messages whose functions call the library: mutating objects, sending messages, and when this is safe | proved | `C87_history`, `C87_alone`, `C87_external`, `C87_send`, `C87_default`, `C87_next`, `C87_delivered`, `C87_delivered_next`, `C87_steps`, `C87_checked`, `C87_chain_undefined` (PropsRe.v) | Functions are programs (prog in Reenter.v: trees whose next step may depend on the outcome and on the whole state), run by go, which logs what it does. respects in SpecRe.v has the three conditions. C87_history: no undefined behaviour, for finished and unfinished runs, and a kept history with the calls made. C87_alone and C87_external: when conditions (b) and (c) hold by themselves. C87_send, C87_default and C87_next: which functions. C87_delivered, C87_delivered_next and C87_steps: how the functions follow each other, what each gets, and that a function that throws ends the delivery. C87_checked: without any of the conditions, if the outcome is not undefined behaviour then each function was called with a type that was there and with a present mixin of a kind that it accepts. C87_chain_undefined: the multicast whose first function mutates. Arguments and results of functions are not modelled; payloads_fit, listed_once and features_kept as in C83. Lifetime functions of mixins (constructors and so on) still do not call the library. |
| C88 | Texts of exceptions of a domain: they name the right thing, and making them is safe | proved | `C88_text`, `C88_told`, `C88_same`, `C88_lost`, `C88_exception_refuted` (PropsText.v) | Texts.v makes the text of each exception as characters; tell is the step of Life.v with its text, undefined if a destroyed domain is read for it. blamed in SpecText.v says what the text must name. C88_text: what texts say. C88_told: with clean_end (SpecLife.v) and mutations of existing domains every exception has its text. C88_same: nothing else changes. C88_lost and C88_exception_refuted: the proviso is needed. Simplified: a rule that fails has left the mixins as they were; infos live for ever; texts of exceptions of objects (throw_exception.cpp:190-216) are not modelled. |
| C89 | The debug dump of a domain shows what is there | proved | `C89_dump`, `C89_type` (PropsDump.v) | Dump.v has the loops of dbg_dmp with all flags and gives the lines as data; shows_domain in SpecDump.v says how a reader understands them. C89_dump: the dump of a domain. C89_type: the implementations shown for a single type, also the empty one. Under features_kept, the contract of unregister_feature. Simplified: characters, names, addresses and sizes of buffers are left out; numbers do not wrap (the count of empty slots is a number of Z, shown positive). |
| C90 | Global definitions may begin in any order, and the program ends cleanly | proved | `C90_start`, `C90_order`, `C90_exit`, `C90_objects_refuted` (PropsGlob.v) | Globals.v has the completed variables of static storage duration as a stack, with get_domain and the_data_safe making theirs at the first call; at the end the stack is undone. Using a destroyed domain, or a domain with a registered info or rule whose data was destroyed, is undefined. C90_start, C90_order, C90_exit. Global objects made with a type are on the stack too (SObj, counted for their type), and are always destroyed before the definitions they need; C90_objects_refuted: other objects at the end break it. As in C66, calls of the program do not destroy global objects, do not add rules and do not register defined mixins (orderly); other global variables of the program do not use the library at the end. |

## Trusted base

* Coq's kernel (8.16.1); `vm_compute` is used in examples and refutations only.
* `Print Assumptions` prints "Closed under the global context" for every theorem: no axiom is used, neither own ones nor those of the standard library.
  (The standard library's `ssrunder` module, loaded by `ssreflect`-style files, declares `Under_rel` parameters; no theorem depends on them.)
* The reading of the C++ code: that the definitions model the cited lines.
* Semantics of itlib (`flat_map`, `span`, `data_mutex`, `erase_all_if`, `pfind`...) and of the C++ standard library as documented; they are not part of the repository.

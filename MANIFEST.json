{
 "claims": [
  {
   "property": "C01",
   "status": "proved",
   "theorems": [
    "C01_mixin_ids"
   ],
   "note": ""
  },
  {
   "property": "C02",
   "status": "proved",
   "theorems": [
    "C02_feature_ids"
   ],
   "note": ""
  },
  {
   "property": "C03",
   "status": "proved",
   "theorems": [
    "C03_least_free_mixin_id",
    "C03_least_free_feature_id",
    "C03_mixin_ids_stable",
    "C03_feature_ids_stable"
   ],
   "note": ""
  },
  {
   "property": "C04",
   "status": "proved",
   "theorems": [
    "C04_mixin_names",
    "C04_feature_names"
   ],
   "note": ""
  },
  {
   "property": "C05",
   "status": "partial",
   "theorems": [
    "C05_failed_register",
    "C05_failed_unregister_feature",
    "C05_failed_unregister_partial",
    "C05_failed_unregister_refuted"
   ],
   "note": "Registration and unregistering a feature: proved. Unregistering a mixin: proved when the mixin is registered nowhere (only stored queries naming it go). Refuted for a mixin registered in another domain: the call throws but drops types of this domain."
  },
  {
   "property": "C06",
   "status": "proved",
   "theorems": [
    "C06_unregister_undoes_register"
   ],
   "note": ""
  },
  {
   "property": "C07",
   "status": "partial",
   "theorems": [
    "C07_type_classes_partial",
    "C07_register_after_unregister_refuted"
   ],
   "note": "Proved for histories without undefined behaviour. Refuted in general: registering a type class after one was unregistered writes through a dangling pointer."
  },
  {
   "property": "C08",
   "status": "proved",
   "theorems": [
    "C08_one_domain"
   ],
   "note": ""
  },
  {
   "property": "C09",
   "status": "proved",
   "theorems": [
    "C09_rule_counts"
   ],
   "note": "Under the stated precondition on rule names."
  },
  {
   "property": "C10",
   "status": "proved",
   "theorems": [
    "C10_rule_order",
    "C10_any_order",
    "C10_rule_order_refuted"
   ],
   "note": "Proved for rules whose names are regular (a null view is empty, names at one address are equal strings). C10_rule_order_refuted: without that, dnmx_sv_cmp takes two names at the same address for equal and the order by name fails."
  },
  {
   "property": "C11",
   "status": "partial",
   "theorems": [
    "C11_stable_partial",
    "C11_stable_refuted"
   ],
   "note": "C11_stable_partial covers histories in which stored answers are current (pure rules, or all registrations first) and, for queries naming dependency mixins, also the second case in which the answer is the query itself. C11_stable_refuted: in that case the type need not be stable under the rules."
  },
  {
   "property": "C12",
   "status": "partial",
   "theorems": [
    "C12_bounded",
    "C12_cyclic_partial",
    "C12_cyclic_refuted"
   ],
   "note": "C12_cyclic_partial needs a query without dependency mixins. C12_cyclic_refuted: with no rules and a dependency mixin in the query the cyclic error is given."
  },
  {
   "property": "C13",
   "status": "partial",
   "theorems": [
    "C13_cache_partial",
    "C13_cache_canonical",
    "C13_cache_refuted"
   ],
   "note": "C13_cache_partial: rules that do not look at the registry, or registrations before the first query; C13_cache_canonical: any history if only the canonicalize rule is active. C13_cache_refuted: register_mixin does not drop stored queries, so a rule that looks up a name gives stale answers."
  },
  {
   "property": "C14",
   "status": "proved",
   "theorems": [
    "C14_one_type_per_list",
    "C14_calls"
   ],
   "note": ""
  },
  {
   "property": "C15",
   "status": "proved",
   "theorems": [
    "C15_types_valid",
    "C15_returned_type_valid"
   ],
   "note": ""
  },
  {
   "property": "C16",
   "status": "proved",
   "theorems": [
    "C16_canonical",
    "C16_canonical_refuted"
   ],
   "note": "Proved for regular names; C16_canonical_refuted shows that with overlapping names the order by name fails."
  },
  {
   "property": "C17",
   "status": "proved",
   "theorems": [
    "C17_collection"
   ],
   "note": ""
  },
  {
   "property": "C18",
   "status": "proved",
   "theorems": [
    "C18_unregister_mixin"
   ],
   "note": ""
  },
  {
   "property": "C19",
   "status": "proved",
   "theorems": [
    "C19_failed_get_type",
    "C19_failed_get_type_mutation"
   ],
   "note": ""
  },
  {
   "property": "C20",
   "status": "proved",
   "theorems": [
    "C20_index_of",
    "C20_index_of_name",
    "C20_foreign_refuted"
   ],
   "note": "Lookup by id and by name for all ids and names; has(info) for mixins of the domain or of none. C20_foreign_refuted is an extra: has(info) of a mixin registered in another domain compares ids only and may be true."
  },
  {
   "property": "C21",
   "status": "proved",
   "theorems": [
    "C21_layout",
    "C21_overflow_refuted"
   ],
   "note": "Under the stated precondition; C21_overflow_refuted shows that two 2 GiB mixins give a 48 byte buffer."
  },
  {
   "property": "C22",
   "status": "proved",
   "theorems": [
    "C22_external_buffer",
    "C22_overflow_refuted"
   ],
   "note": "Under the stated precondition; C22_overflow_refuted shows the wrap-around."
  },
  {
   "property": "C23",
   "status": "partial",
   "theorems": [
    "C23_implements",
    "C23_implements_name",
    "C23_id_reuse_refuted",
    "C23_foreign_refuted"
   ],
   "note": "Proved for features registered in the domain of the type, under the contract of unregister_feature. Refuted without the contract (id reuse) and for features of another domain (ids collide)."
  },
  {
   "property": "C24",
   "status": "proved",
   "theorems": [
    "C24_unicast"
   ],
   "note": ""
  },
  {
   "property": "C25",
   "status": "proved",
   "theorems": [
    "C25_multicast"
   ],
   "note": ""
  },
  {
   "property": "C26",
   "status": "proved",
   "theorems": [
    "C26_clash",
    "C26_clash_no_rules",
    "C26_no_clash_in_types"
   ],
   "note": "For queries whose type is created by the call, with any active rules (C26_clash) and without rules."
  },
  {
   "property": "C27",
   "status": "partial",
   "theorems": [
    "C27_next_implementer",
    "C27_next_implementer_refuted",
    "C27_first_listing",
    "C27_ends_exactly"
   ],
   "note": "The statement holds exactly for the types in which no mixin lists the feature twice (C27_ends_exactly): then the chain visits every listing once, in order, and ends; otherwise it never ends (C27_next_implementer_refuted is such a case). C27_first_listing: for any listings, the next implementer is the one after the mixin's first listing in the row."
  },
  {
   "property": "C28",
   "status": "proved",
   "theorems": [
    "C28_next_bidder_set",
    "C28_first_listing",
    "C28_not_implementer"
   ],
   "note": "C28_next_bidder_set if mixins list a feature once; C28_first_listing and C28_not_implementer for any listings (the bid of a mixin is that of its first, highest, listing)."
  },
  {
   "property": "C29",
   "status": "proved",
   "theorems": [
    "C29_defaults"
   ],
   "note": ""
  },
  {
   "property": "C30",
   "status": "proved",
   "theorems": [
    "C30_compare",
    "C30_compare_refuted"
   ],
   "note": "Under the stated precondition; C30_compare_refuted shows a cycle of three types otherwise."
  },
  {
   "property": "C31",
   "status": "proved",
   "theorems": [
    "C31_traits",
    "C31_create",
    "C31_copy",
    "C31_assign",
    "C31_compare"
   ],
   "note": "Creation and copying outside of unwinding (see C51). copy_assignable: copy_from between objects of the same type never throws for a missing function."
  },
  {
   "property": "C32",
   "status": "proved",
   "theorems": [
    "C32_add",
    "C32_remove_to_back",
    "C32_by_name",
    "C32_add_by_name",
    "C32_dedup",
    "C32_implements"
   ],
   "note": ""
  },
  {
   "property": "C33",
   "status": "proved",
   "theorems": [
    "C33_legal",
    "C33_held",
    "C33_counts",
    "C33_end"
   ],
   "note": "C33_legal holds for every program, also one that breaks contracts, as long as no call had undefined behaviour; the others for programs that keep the contracts (fair). Mixins without destroy function need no destruction and are not counted."
  },
  {
   "property": "C34",
   "status": "proved",
   "theorems": [
    "C34_counts",
    "C34_matching",
    "C34_end",
    "C34_sizes"
   ],
   "note": ""
  },
  {
   "property": "C35",
   "status": "proved",
   "theorems": [
    "C35_failed"
   ],
   "note": "All mutation functions of C++ and C; with update functions given by the caller (C API only) the values of common mixins may change, see C50_failed."
  },
  {
   "property": "C36",
   "status": "proved",
   "theorems": [
    "C36_keeps"
   ],
   "note": ""
  },
  {
   "property": "C37",
   "status": "proved",
   "theorems": [
    "C37_target",
    "C37_changes"
   ],
   "note": ""
  },
  {
   "property": "C38",
   "status": "proved",
   "theorems": [
    "C38_object_of",
    "C38_one_owner"
   ],
   "note": ""
  },
  {
   "property": "C39",
   "status": "proved",
   "theorems": [
    "C39_construct",
    "C39_assign"
   ],
   "note": ""
  },
  {
   "property": "C40",
   "status": "proved",
   "theorems": [
    "C40_sealed"
   ],
   "note": "Nothing changes and nothing is called; the call throws unless there is nothing to do (mutate_to with ops or mutate to the type that the object has; move assignment to itself; a gradual mutation given up during unwinding)."
  },
  {
   "property": "C41",
   "status": "proved",
   "theorems": [
    "C41_copy",
    "C41_failed"
   ],
   "note": ""
  },
  {
   "property": "C42",
   "status": "proved",
   "theorems": [
    "C42_copy_from",
    "C42_failed"
   ],
   "note": "On failure common mixins are where they were but may have been assigned already."
  },
  {
   "property": "C43",
   "status": "partial",
   "theorems": [
    "C43_copy_matching",
    "C43_move_matching_partial",
    "C43_self_refuted"
   ],
   "note": "C43_copy_matching in full. C43_move_matching_partial excludes move_matching_from of an object to itself with the fallback to destruction and construction (contract fair); C43_self_refuted shows that it would be false."
  },
  {
   "property": "C44",
   "status": "proved",
   "theorems": [
    "C44_equals",
    "C44_compare"
   ],
   "note": ""
  },
  {
   "property": "C45",
   "status": "proved",
   "theorems": [
    "C45_num_objects"
   ],
   "note": ""
  },
  {
   "property": "C46",
   "status": "proved",
   "theorems": [
    "C46_type_valid"
   ],
   "note": ""
  },
  {
   "property": "C47",
   "status": "partial",
   "theorems": [
    "C47_emptied_partial",
    "C47_clear",
    "C47_destroyed",
    "C47_mutate_refuted"
   ],
   "note": "Proved for reset_type, mutate_to without ops, gradual mutation, clear and the destructor. C47_mutate_refuted: mutate, mutate_to with ops, dnmx_mutate and dnmx_mutate_to report success but the object keeps its type and mixins, a block of size 0 leaks and the empty type counts an object; with asserts enabled the program aborts."
  },
  {
   "property": "C48",
   "status": "partial",
   "theorems": [
    "C48_overrides_partial",
    "C48_applied_partial",
    "C48_twice_refuted"
   ],
   "note": "Proved for lists of ops that name each mixin at most once. C48_twice_refuted: a second op for the same mixin constructs it in the buffer of the next mixin."
  },
  {
   "property": "C49",
   "status": "partial",
   "theorems": [
    "C49_exact",
    "C49_updates_partial",
    "C49_failed",
    "C49_past_end_refuted"
   ],
   "note": "Proved except for an index equal to the number of mixins: C49_past_end_refuted shows that update_at accepts it silently. On failure the update functions called before have had their effect on common mixins. C49_exact: exactly which lists of indices are accepted."
  },
  {
   "property": "C50",
   "status": "proved",
   "theorems": [
    "C50_applied",
    "C50_failed"
   ],
   "note": "dnmx_mutate_to. A failure without failing call is a sealed object or a new mixin without init function and override (may_throw)."
  },
  {
   "property": "C51",
   "status": "partial",
   "theorems": [
    "C51_applied_partial",
    "C51_created_partial",
    "C51_unwinding_refuted"
   ],
   "note": "Proved if no exception is in flight. C51_unwinding_refuted: std::uncaught_exceptions() makes the destructor of object_mutation roll back and report nothing; a new object even gets no type."
  },
  {
   "property": "C52",
   "status": "proved",
   "theorems": [
    "C52_combinators"
   ],
   "note": "For combinators in their initial state; integers are unbounded in the model."
  },
  {
   "property": "C53",
   "status": "proved",
   "theorems": [
    "C53_mutually_exclusive",
    "C53_mandatory",
    "C53_deprecated",
    "C53_substitute",
    "C53_bundled",
    "C53_dependent",
    "C53_substitute_present_refuted"
   ],
   "note": "C53_substitute_present_refuted is an extra: substitute adds the target even if it is present, and get_type then fails."
  },
  {
   "property": "C54",
   "status": "proved",
   "theorems": [
    "C54_ids",
    "C54_active"
   ],
   "note": ""
  },
  {
   "property": "C55",
   "status": "partial",
   "theorems": [
    "C55_attaches_partial",
    "C55_attached_only_with_primary",
    "C55_attaches_refuted",
    "C55_named_dependency_refuted"
   ],
   "note": "C55_attaches_partial excludes other active rules that remove the primary or the attached mixin, and queries naming dependencies if the primary is one. Both exclusions are necessary (two refutations). The second half (attached only with a primary) is proved in full."
  },
  {
   "property": "C56",
   "status": "proved",
   "theorems": [
    "C56_linearizable",
    "C56_agree"
   ],
   "note": "C56_linearizable is more general: any calls, as long as no call changes what another running one relies on. C56_agree is the English claim."
  },
  {
   "property": "C57",
   "status": "partial",
   "theorems": [
    "C57_quiet_partial",
    "C57_stale_refuted"
   ],
   "note": "Proved when no rule change happens while another thread is between its two locks in get_type (C57_quiet_partial). Refuted otherwise: the query is stored after the rule change cleared the queries, and stays (C57_stale_refuted)."
  },
  {
   "property": "C58",
   "status": "partial",
   "theorems": [
    "C58_quiet_partial",
    "C58_dangling_refuted",
    "C58_unregister_refuted"
   ],
   "note": "Proved when no collection or unregistration happens while another thread is between its two locks in get_type. Refuted otherwise: the query is stored with a type that was destroyed (C58_dangling_refuted), or a type is stored with a mixin that is no longer registered (C58_unregister_refuted)."
  },
  {
   "property": "C59",
   "status": "partial",
   "theorems": [
    "C59_no_deadlock",
    "C59_dump_partial",
    "C59_dump_refuted"
   ],
   "note": "Proved for all domain calls, whether or not readers of a mutex wait for waiting writers. With dbg_dmp of a domain, which locks the type registry shared twice: proved where they do not wait, refuted where they do (C59_dump_refuted)."
  },
  {
   "property": "C60",
   "status": "partial",
   "theorems": [
    "C60_exact",
    "C60_sv_cmp_partial",
    "C60_sv_cmp_refuted"
   ],
   "note": "Proved for views of different address or same contents; refuted for views of different length at the same address. C60_exact: these are the only wrong ones (if and only if)."
  },
  {
   "property": "C61",
   "status": "proved",
   "theorems": [
    "C61_queries"
   ],
   "note": ""
  },
  {
   "property": "C62",
   "status": "proved",
   "theorems": [
    "C62_frame"
   ],
   "note": ""
  },
  {
   "property": "C63",
   "status": "proved",
   "theorems": [
    "C63_honest"
   ],
   "note": "For all object operations, also outside of the contracts."
  },
  {
   "property": "C64",
   "status": "proved",
   "theorems": [
    "C64_no_ub"
   ],
   "note": ""
  },
  {
   "property": "C65",
   "status": "proved",
   "theorems": [
    "C65_seal",
    "C65_created",
    "C65_there"
   ],
   "note": "An object that was moved from stays sealed: usurp does not reset the seal of its source."
  },
  {
   "property": "C66",
   "status": "proved",
   "theorems": [
    "C66_definitions",
    "C66_end",
    "C66_failed_refuted",
    "C66_noexcept_refuted"
   ],
   "note": "The histories have definitions that succeed. C66_failed_refuted: a definition that throws leaves its rules in the domain. C66_noexcept_refuted: unregister_from alone terminates the program if the mixin is not registered there (it is noexcept and unregister_mixin throws); the destructor checks first."
  },
  {
   "property": "C67",
   "status": "proved",
   "theorems": [
    "C67_built",
    "C67_names"
   ],
   "note": ""
  },
  {
   "property": "C68",
   "status": "partial",
   "theorems": [
    "C68_order_partial",
    "C68_order_refuted",
    "C68_exact"
   ],
   "note": "Holds for at most ten rules: the eleventh is named ... rule 10, which sorts before ... rule 2 (C68_order_refuted). C68_exact: in the order of the calls if and only if there are at most ten."
  },
  {
   "property": "C69",
   "status": "partial",
   "theorems": [
    "C69_lets_out_partial",
    "C69_reset_refuted",
    "C69_unregister_refuted"
   ],
   "note": "Exact: three calls let exceptions out. dnmx_object_reset_type(sealed, NULL) (C69_reset_refuted), dnmx_unregister_mixin and dnmx_unregister_feature of what is not registered there (C69_unregister_refuted). Creation of domains and allocators (operator new without try) is not part of the model."
  },
  {
   "property": "C70",
   "status": "proved",
   "theorems": [
    "C70_same",
    "C70_mutations",
    "C70_answers",
    "C70_types",
    "C70_compare",
    "C70_is_of",
    "C70_edits",
    "C70_mutation_life",
    "C70_history"
   ],
   "note": ""
  },
  {
   "property": "C71",
   "status": "proved",
   "theorems": [
    "C71_enough_memory",
    "C71_left_behind",
    "C71_retry",
    "C71_sound"
   ],
   "note": "Not modelled: memory running out while an exception with a text is being made."
  },
  {
   "property": "C72",
   "status": "proved",
   "theorems": [
    "C72_elements",
    "C72_types",
    "C72_rules"
   ],
   "note": "The order of visits is part of the theorem for none of them."
  },
  {
   "property": "C73",
   "status": "partial",
   "theorems": [
    "C73_isolated",
    "C73_clean_end_partial",
    "C73_lost_mixin",
    "C73_lost_feature",
    "C73_unregister_optional_refuted"
   ],
   "note": "First sentence: proved (C73_isolated). Second: refuted. ~domain leaves ids and domains in the infos; the mixins can then be registered nowhere (C73_lost_mixin, C73_lost_feature), and a new mixin with such a feature is undefined behaviour. Holds if all is unregistered before (C73_clean_end_partial). In C73_lost_mixin the text of the exception is left out; with it the call is undefined (C88_lost)."
  },
  {
   "property": "C74",
   "status": "proved",
   "theorems": [
    "C74_in_bounds",
    "C74_apart",
    "C74_array",
    "C74_objects",
    "C74_pointers"
   ],
   "note": "Proved for mixins whose infos were filled by set_size_alignment without 32-bit overflow (C22) and for types whose layout fits 32 bits (part of fair; C21 refutes the general case). equals and compare are not logged; they get pointers as in C74_objects."
  },
  {
   "property": "C75",
   "status": "proved",
   "theorems": [
    "C75_bytes",
    "C75_new",
    "C75_copy",
    "C75_mutation",
    "C75_compare",
    "C75_self",
    "C75_self_refuted"
   ],
   "note": "User functions are any functions that write no bytes but those of their mixins. The common functions must not get one mixin as target and source (memcpy): C75_self shows that it is undefined then, C75_self_refuted that copying an object to itself does it (finding)."
  },
  {
   "property": "C76",
   "status": "proved",
   "theorems": [
    "C76_log",
    "C76_object",
    "C76_questions",
    "C76_others",
    "C76_building",
    "C76_destroy",
    "C76_made",
    "C76_memory"
   ],
   "note": "User functions do not re-enter the library to change objects; they see states. C76_made contradicts danger.md:25 for object::copy (finding 23)."
  },
  {
   "property": "C77",
   "status": "partial",
   "theorems": [
    "C77_kept",
    "C77_external_refuted"
   ],
   "note": "Proved for external mixins that the object keeps, and for all mixins if the mutation fails (C77_kept). Refuted for external mixins that the mutation removes: they may be destroyed and freed while move and destroy functions run, and the object still gives the pointer (C77_external_refuted)."
  },
  {
   "property": "C78",
   "status": "proved",
   "theorems": [
    "C78_buffer",
    "C78_throws",
    "C78_wide"
   ],
   "note": "Refinement: TypeBuf.v has create_type with bytes, C78_buffer relates it to TypeBuild.v. C78_wide shows that the bound of 4 GiB is needed. Pointers to infos are the infos."
  },
  {
   "property": "C79",
   "status": "partial",
   "theorems": [
    "C79_exact",
    "C79_allocate",
    "C79_object",
    "C79_large_refuted"
   ],
   "note": "Proved if size plus alignment is less than 2^32. Refuted otherwise (C79_large_refuted): the arguments are cut to 32 bits and the rounding wraps, and the caller gets a block of 0 bytes or of the size modulo 2^32. C79_exact: enough if and only if size plus alignment is at most 2^32."
  },
  {
   "property": "C80",
   "status": "partial",
   "theorems": [
    "C80_functions",
    "C80_c_macros",
    "C80_types",
    "C80_calls",
    "C80_new",
    "C80_copy",
    "C80_mutation",
    "C80_own_partial",
    "C80_own_refuted"
   ],
   "note": "The type traits of a class are taken as given. C80_own_partial: mixins of classes with a destructor are changed by members of the class only, except by trivial assignments; C80_own_refuted shows what that exception does (finding 26). Members added by hand to an info (adding compare, say) are not covered."
  },
  {
   "property": "C81",
   "status": "proved",
   "theorems": [
    "C81_view",
    "C81_simulates",
    "C81_persists"
   ],
   "note": "SpecAbs.v is the machine on views (effect, no_effect, behaves); C81_simulates proves that every call refines it, C81_view says what a view is in terms of the queries of the object, C81_persists follows values over runs of calls."
  },
  {
   "property": "C82",
   "status": "proved",
   "theorems": [
    "C82_use",
    "C82_journey",
    "C82_read_back"
   ],
   "note": "A use of a mixin is a step of a history (OUse in Object.v): get by index, then code of the program that may throw. C82_use is one use, C82_journey follows a value over moves and copies (journey, passes in SpecAbs.v), C82_read_back puts both together. All other history theorems cover such steps too."
  },
  {
   "property": "C83",
   "status": "proved",
   "theorems": [
    "C83_unicast",
    "C83_multicast",
    "C83_default",
    "C83_next",
    "C83_bidders",
    "C83_delivered",
    "C83_history"
   ],
   "note": "The message callers run on objects (ObjMsg.v). A message is shown to be a sequence of uses of mixins (carried_out in SpecSend.v): C83_unicast, C83_multicast, C83_next and C83_bidders say of which listings; C83_delivered says what that does and C83_history that histories go on. payloads_fit: every function is listed in the infos of mixins it can be called with. listed_once and features_kept are the conditions of C27/C28 and C23. Functions that call the library from inside a message are in C87. Arguments and results are not modelled."
  },
  {
   "property": "C84",
   "status": "proved",
   "theorems": [
    "C84_domains",
    "C84_registries"
   ],
   "note": "C84_domains: for every condition on domain calls that holds of those made by objects, a history of objects is a run of the domain (run_where) whose calls are the program's own, in order and with their outcomes, mixed with calls made by objects. C84_registries: one call of the object interface."
  },
  {
   "property": "C85",
   "status": "partial",
   "theorems": [
    "C85_begin",
    "C85_quiet",
    "C85_list",
    "C85_apply",
    "C85_calls",
    "C85_foreign",
    "C85_end",
    "C85_history",
    "C85_one_go",
    "C85_keeps_refuted"
   ],
   "note": "The mutation as a live object (GradMut.v): C85_begin, C85_quiet, C85_list (edit and drafted in SpecGrad.v spell the calls out), C85_apply, C85_calls (apply is get_type and reset_type, with their outcome) and C85_foreign, C85_end, C85_history, and C85_one_go: without other calls in between it is the step OGradual of histories. The last claim is refuted (C85_keeps_refuted): the list is a snapshot, so mixins that others added meanwhile are removed and those that others removed come back with new values. After a rule that threw inside apply the list is arbitrary (junk); that matters only if apply is called again."
  },
  {
   "property": "C86",
   "status": "proved",
   "theorems": [
    "C86_copy",
    "C86_history",
    "C86_next_bidder"
   ],
   "note": "v1_copy is shown to be the calls OEmpty, OCopyFrom and, if that throws, ODtor with its outcome (C86_history); C86_copy says what objects are before and after. The object is constructed in place (the return value is not moved). C86_next_bidder is over has_next_bidder_set/call_next_bidder_set/top of C28 and C83, with the same conditions."
  },
  {
   "property": "C87",
   "status": "proved",
   "theorems": [
    "C87_history",
    "C87_alone",
    "C87_external",
    "C87_send",
    "C87_default",
    "C87_next",
    "C87_delivered",
    "C87_delivered_next",
    "C87_steps",
    "C87_checked",
    "C87_chain_undefined"
   ],
   "note": "Functions are programs (prog in Reenter.v: trees whose next step may depend on the outcome and on the whole state), run by go, which logs what it does. respects in SpecRe.v has the three conditions. C87_history: no undefined behaviour, for finished and unfinished runs, and a kept history with the calls made. C87_alone and C87_external: when conditions (b) and (c) hold by themselves. C87_send, C87_default and C87_next: which functions. C87_delivered, C87_delivered_next and C87_steps: how the functions follow each other, what each gets, and that a function that throws ends the delivery. C87_checked: without any of the conditions, if the outcome is not undefined behaviour then each function was called with a type that was there and with a present mixin of a kind that it accepts. C87_chain_undefined: the multicast whose first function mutates. Arguments and results of functions are not modelled; payloads_fit, listed_once and features_kept as in C83. Lifetime functions of mixins (constructors and so on) still do not call the library."
  },
  {
   "property": "C88",
   "status": "proved",
   "theorems": [
    "C88_text",
    "C88_told",
    "C88_same",
    "C88_lost",
    "C88_exception_refuted"
   ],
   "note": "Texts.v makes the text of each exception as characters; tell is the step of Life.v with its text, undefined if a destroyed domain is read for it. blamed in SpecText.v says what the text must name. C88_text: what texts say. C88_told: with clean_end (SpecLife.v) and mutations of existing domains every exception has its text. C88_same: nothing else changes. C88_lost and C88_exception_refuted: the proviso is needed. Simplified: a rule that fails has left the mixins as they were; infos live for ever; texts of exceptions of objects (throw_exception.cpp:190-216) are not modelled."
  },
  {
   "property": "C89",
   "status": "proved",
   "theorems": [
    "C89_dump",
    "C89_type"
   ],
   "note": "Dump.v has the loops of dbg_dmp with all flags and gives the lines as data; shows_domain in SpecDump.v says how a reader understands them. C89_dump: the dump of a domain. C89_type: the implementations shown for a single type, also the empty one. Under features_kept, the contract of unregister_feature. Simplified: characters, names, addresses and sizes of buffers are left out; numbers do not wrap (the count of empty slots is a number of Z, shown positive)."
  },
  {
   "property": "C90",
   "status": "proved",
   "theorems": [
    "C90_start",
    "C90_order",
    "C90_exit",
    "C90_objects_refuted"
   ],
   "note": "Globals.v has the completed variables of static storage duration as a stack, with get_domain and the_data_safe making theirs at the first call; at the end the stack is undone. Using a destroyed domain, or a domain with a registered info or rule whose data was destroyed, is undefined. C90_start, C90_order, C90_exit. Global objects made with a type are on the stack too (SObj, counted for their type), and are always destroyed before the definitions they need; C90_objects_refuted: other objects at the end break it. As in C66, calls of the program do not destroy global objects, do not add rules and do not register defined mixins (orderly); other global variables of the program do not use the library at the end."
  }
 ]
}

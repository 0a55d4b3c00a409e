{
 "claims": [
  {
   "property": "C01",
   "status": "proved",
   "theorems": [
    "C01_read_last_written",
    "C01_storage_get",
    "C01_any_history"
   ],
   "note": "C01_any_history: also holds without the rules of use, after panics and with groups in any state (histories `loose`, SpecLoose.v)."
  },
  {
   "property": "C02",
   "status": "proved",
   "theorems": [
    "C02_frame",
    "C02_any_history",
    "C02_gains_any_history"
   ],
   "note": "C02_any_history: the exact effect of every call on every component, without the rules of use, after panics and with groups in any state (histories `loose`, SpecLoose.v)."
  },
  {
   "property": "C03",
   "status": "proved",
   "theorems": [
    "C03_dense",
    "C03_unregistered",
    "C21_any_history"
   ],
   "note": "C21_any_history: also holds without the rules of use, after panics and with groups in any state (histories `loose`, SpecLoose.v)."
  },
  {
   "property": "C04",
   "status": "partial",
   "theorems": [
    "C04_detach_exact",
    "C04_detach_partial",
    "C04_detach_refuted",
    "C04_detached_any_history"
   ],
   "note": "False of the code: detaching a type the entity lacks panics when the id equals the length of the index table (sparse_set.rs:70 strict guard). C04_detach_refuted is the witness; C04_detach_exact says exactly what happens in every case."
  },
  {
   "property": "C05",
   "status": "proved",
   "theorems": [
    "C05_attach_in_place"
   ],
   "note": ""
  },
  {
   "property": "C06",
   "status": "proved",
   "theorems": [
    "C06_batch_one_by_one",
    "C06_batch_answer",
    "C06_any_history"
   ],
   "note": "C06_any_history: also holds without the rules of use, after panics and with groups in any state (histories `loose`, SpecLoose.v)."
  },
  {
   "property": "C07",
   "status": "partial",
   "theorems": [
    "C07_batch_twice_refuted",
    "C07_batch_exact"
   ],
   "note": "False of the code: the second batch appends instead of overwriting (witness for every n). C07_batch_exact: what every batch does - the entities read their new values, but count and data grow by the whole batch."
  },
  {
   "property": "C08",
   "status": "proved",
   "theorems": [
    "C08_create_fresh",
    "C08_any_history"
   ],
   "note": "C08_any_history: also holds of every history that does not remove the longest waiting id again (C15), whatever else it does (`tidy`, SpecLoose.v)."
  },
  {
   "property": "C09",
   "status": "proved",
   "theorems": [
    "C09_create_recycles_lifo",
    "C09_waiting_exact",
    "C09_any_history"
   ],
   "note": "C09_any_history: also holds of every history that does not remove the longest waiting id again (C15), whatever else it does (`tidy`, SpecLoose.v)."
  },
  {
   "property": "C10",
   "status": "proved",
   "theorems": [
    "C10_create_entities",
    "C10_any_history"
   ],
   "note": "C10_any_history: also holds of every history that does not remove the longest waiting id again (C15), whatever else it does (`tidy`, SpecLoose.v)."
  },
  {
   "property": "C11",
   "status": "proved",
   "theorems": [
    "C11_no_id_leak",
    "C11_any_history"
   ],
   "note": "C11_any_history: also holds of every history that does not remove the longest waiting id again (C15), whatever else it does (`tidy`, SpecLoose.v)."
  },
  {
   "property": "C12",
   "status": "proved",
   "theorems": [
    "C12_exist_live",
    "C12_any_history"
   ],
   "note": "C12_any_history: also holds of every history that does not remove the longest waiting id again (C15), whatever else it does (`tidy`, SpecLoose.v)."
  },
  {
   "property": "C13",
   "status": "partial",
   "theorems": [
    "C13_exist_removed_partial",
    "C13_exist_always_wrong_about_one",
    "C13_exist_removed_refuted",
    "C13_any_history"
   ],
   "note": "False of the code for the oldest waiting id (and only for it): exact characterisation proved. C13_any_history: the exact answer also holds of every history that does not remove the longest waiting id again (C15), whatever else it does (`tidy`, SpecLoose.v)."
  },
  {
   "property": "C14",
   "status": "partial",
   "theorems": [
    "C14_exist_total_partial",
    "C14_exist_total_refuted",
    "C14_any_history"
   ],
   "note": "False of the code: panics for ids never handed out; total on all the others. C14_any_history: the exact answer also holds of every history that does not remove the longest waiting id again (C15), whatever else it does (`tidy`, SpecLoose.v)."
  },
  {
   "property": "C15",
   "status": "partial",
   "theorems": [
    "C15_remove_dead_partial",
    "C15_remove_dead_refuted",
    "C15_any_history"
   ],
   "note": "False for the oldest waiting id; proved for all others. C15_any_history: the exact answer also holds of every history that does not remove the longest waiting id again (C15), whatever else it does (`tidy`, SpecLoose.v)."
  },
  {
   "property": "C16",
   "status": "proved",
   "theorems": [
    "C16_remove_exact",
    "C16_any_history"
   ],
   "note": "C16_any_history: also holds without the rules of use, after panics and with groups in any state (histories `loose`, SpecLoose.v). If the call panics, the entity lives on with some or all of its components."
  },
  {
   "property": "C17",
   "status": "proved",
   "theorems": [
    "C17_remove_order",
    "C17_any_history"
   ],
   "note": "C17_any_history: also holds without the rules of use, after panics and with groups in any state (histories `loose`, SpecLoose.v)."
  },
  {
   "property": "C18",
   "status": "partial",
   "theorems": [
    "C18_new_entities_bare",
    "C18_new_entity_bare",
    "C18_new_entity_bare_refuted",
    "C18_new_entities_any_history",
    "C18_new_entity_any_history"
   ],
   "note": "create_entities: proved. create_entity: proved for histories that attach to live entities only; refuted for those that attach to the oldest waiting (dead) id, which the API accepts. The two _any_history theorems need only `loose` and `tidy`."
  },
  {
   "property": "C19",
   "status": "proved",
   "theorems": [
    "C19_no_confusion",
    "C19_guard_iff_registered"
   ],
   "note": ""
  },
  {
   "property": "C20",
   "status": "proved",
   "theorems": [
    "C20_has_registered",
    "C20_register_new",
    "C20_register_again",
    "C20_permanent"
   ],
   "note": ""
  },
  {
   "property": "C21",
   "status": "proved",
   "theorems": [
    "C21_ref_exact",
    "C21_unregistered",
    "C21_len_exact",
    "C21_any_history"
   ],
   "note": "C21_any_history: also holds without the rules of use, after panics and with groups in any state (histories `loose`, SpecLoose.v)."
  },
  {
   "property": "C22",
   "status": "partial",
   "theorems": [
    "C22_query_exact",
    "C22_tuple_join_partial",
    "C22_join_exact",
    "C22_left_out_refuted",
    "C22_not_fine",
    "C22_any_history",
    "C22_not_fine_any_history"
   ],
   "note": "True of all queries without groups, and with groups in order (undisturbed, nobody left out): C22_query_exact, C22_tuple_join_partial. False with an owning group that left out an entity (C32) as second part: witness. C22_join_exact: what a join is then - the visits of the first part for which the others answer from_id. C22_any_history: every query without groups; it also holds without the rules of use, after panics and with groups in any state (histories `loose`, SpecLoose.v)."
  },
  {
   "property": "C23",
   "status": "partial",
   "theorems": [
    "C23_without_partial",
    "C23_without_exact",
    "C23_left_out_refuted",
    "C23_any_history"
   ],
   "note": "As C22: proved for queries without groups or with groups in order; witness and exact behaviour (from_id of B) for owning groups that left out an entity. C23_any_history: every query without groups; it also holds without the rules of use, after panics and with groups in any state (histories `loose`, SpecLoose.v)."
  },
  {
   "property": "C24",
   "status": "partial",
   "theorems": [
    "C24_iterator_calls_partial",
    "C24_from_id_partial",
    "C24_next",
    "C24_exact",
    "C24_from_id_exact",
    "C24_driven_by_ref",
    "C24_next_is_next_with_id",
    "C24_left_out_refuted",
    "C24_any_history"
   ],
   "note": "False of the code: from_id of an owning group answers for entities the group left out (batch attach). Exact: the iteration visits what from_id answers for minus what the driving group left out. The second half (next = next_with_id without ids, mixed in any way) is proved of every history and query: C24_next_is_next_with_id. C24_any_history: every query without groups; it also holds without the rules of use, after panics and with groups in any state (histories `loose`, SpecLoose.v)."
  },
  {
   "property": "C25",
   "status": "partial",
   "theorems": [
    "C25_each_written_once_partial",
    "C25_no_alias_partial",
    "C25_items_alive",
    "C25_written_exact",
    "C25_stale_refuted",
    "C25_any_history",
    "C25_no_alias_any_history"
   ],
   "note": "False of the code for non-owning groups whose stored positions have gone stale (C30): two items of one iteration refer mutably to the same component (witness). Proved for all other queries, left-out entities included. C25_any_history: every query without groups; it also holds without the rules of use, after panics and with groups in any state (histories `loose`, SpecLoose.v)."
  },
  {
   "property": "C26",
   "status": "proved",
   "theorems": [
    "C26_make_group_changes_nothing",
    "C26_any_history"
   ],
   "note": "C26_any_history: also holds without the rules of use, after panics and with groups in any state (histories `loose`, SpecLoose.v)."
  },
  {
   "property": "C27",
   "status": "proved",
   "theorems": [
    "C27_refused_iff",
    "C27_only_make_group",
    "C27_one_owner",
    "C27_rules"
   ],
   "note": ""
  },
  {
   "property": "C28",
   "status": "proved",
   "theorems": [
    "C28_full_owning"
   ],
   "note": ""
  },
  {
   "property": "C29",
   "status": "proved",
   "theorems": [
    "C29_partial_owning"
   ],
   "note": ""
  },
  {
   "property": "C30",
   "status": "partial",
   "theorems": [
    "C30_non_owning_partial",
    "C30_size_hint",
    "C30_not_in_group",
    "C30_right_entities",
    "C30_non_owning_refuted"
   ],
   "note": "False of the code: the group stores dense positions that go stale. Proved for undisturbed groups; for disturbed ones, what survives: the right entities (size_hint, who is not in it, the ids iterated)."
  },
  {
   "property": "C31",
   "status": "partial",
   "theorems": [
    "C31_good_order",
    "C31_remove_keeps_groups_partial",
    "C31_order_refuted",
    "C31_bad_order"
   ],
   "note": "False of the code: witness; proved for the good creation order. C31_bad_order: every removal from two groups of which the first owns a type of the second leaves the second counting one too many."
  },
  {
   "property": "C32",
   "status": "partial",
   "theorems": [
    "C32_batch_refuted",
    "C32_batch_before_partial",
    "C32_batch_exact",
    "C32_attach_heals"
   ],
   "note": "False of the code: Entities::attach never updates groups. Proved for batches made before the group. C32_batch_exact: no batch attach changes the answer of any owning group; C32_attach_heals: a later single attach of one of the two types puts the entity in."
  },
  {
   "property": "C33",
   "status": "partial",
   "theorems": [
    "C33_no_ub_partial",
    "C33_iterator_no_ub_partial",
    "C33_rules_partial",
    "C33_no_ub_refuted",
    "C33_any_history"
   ],
   "note": "False of the code (three witnesses). Proved for every history, rules of use or not, without group queries and double batch attach; and for every history keeping the rules of use. C33_any_history: the calls a history may contain are judged one by one (`loose`)."
  },
  {
   "property": "C34",
   "status": "partial",
   "theorems": [
    "C34_refused_unchanged_partial",
    "C34_poisoned",
    "C34_failed_refuted"
   ],
   "note": "False when a type is not registered (group pushed before the panic); proved for refusals."
  },
  {
   "property": "C35",
   "status": "proved",
   "theorems": [
    "C35_resource_value",
    "C35_independent",
    "C35_unseen"
   ],
   "note": ""
  },
  {
   "property": "C36",
   "status": "proved",
   "theorems": [
    "C36_guards_exclude",
    "C36_same_thread",
    "C36_writer",
    "C36_protected",
    "C36_shared",
    "C36_no_race",
    "C36_shape",
    "C36_kept_guards",
    "C36_no_leak",
    "C36_objects_exclude",
    "C36_own_objects_exclude",
    "C36_kept_protected",
    "C36_repeatable_reads",
    "C36_repeatable_iteration",
    "C36_waits_exactly"
   ],
   "note": "All schedules, any number of threads, any clients. The last seven say it in terms of the objects a thread keeps (SpecKeep.v)."
  },
  {
   "property": "C37",
   "status": "proved",
   "theorems": [
    "C37_entities_kept",
    "C37_handle_guard",
    "C37_self_wait",
    "C37_no_create_under_handle",
    "C37_no_remove_under_handle",
    "C37_handle_alive",
    "C37_handle_freezes"
   ],
   "note": "C37_handle_alive: the entity of every Entity handle any thread keeps exists, under every schedule. The handle keeps the id from being added or removed; it does not keep remove_entity from stripping components before it waits (see C44, DESIGN.md)."
  },
  {
   "property": "C38",
   "status": "partial",
   "theorems": [
    "C38_ordered_partial",
    "C38_never_deadlocked_partial",
    "C38_all_finish_partial",
    "C38_runs_end",
    "C38_fair_partial",
    "C38_group_refuted",
    "C38_query_refuted",
    "C38_read_twice_refuted",
    "C38_handle_asks_refuted",
    "C38_wait_chain",
    "C38_deadlock_is_ring",
    "C38_ring_is_stuck",
    "C38_any_order",
    "C38_fair_ring"
   ],
   "note": "False of the code (four witnesses; the last two with parking_lot's rule that readers wait behind waiting writers). Proved for threads that take locks in an order compatible with the groups; for all threads, a deadlock is a ring of threads waiting for each other and a ring never moves again (C38_deadlock_is_ring, C38_ring_is_stuck), so any order on the locks in use rules it out (C38_any_order)."
  },
  {
   "property": "C39",
   "status": "partial",
   "theorems": [
    "C39_no_crash_partial",
    "C39_calls_safe_partial",
    "C39_values_partial",
    "C39_apart_partial",
    "C39_group_race_refuted"
   ],
   "note": "First three: for clients without group queries and without batch attach onto existing components (C07). C39_apart_partial: with queries of and iterators over owning groups, for threads that divide the entities among themselves, batch attaches to their own new entities included. C39_group_race_refuted: without the discipline a group query can be undefined behaviour. Missing: non-owning groups, which go stale without any threads (C30)."
  },
  {
   "property": "C40",
   "status": "partial",
   "theorems": [
    "C40_race_refuted",
    "C40_mixed_refuted",
    "C40_apart_partial"
   ],
   "note": "False of the code: witnesses. C40_apart_partial: true for threads that divide the entities among themselves (SpecApart.v)."
  },
  {
   "property": "C41",
   "status": "partial",
   "theorems": [
    "C41_dangling_refuted",
    "C41_other_entity_refuted",
    "C41_from_id_alias_refuted",
    "C41_while_guarded_partial",
    "C41_iterator_guards"
   ],
   "note": "False of the code: items outlive the guard (witnesses). Proved for all schedules: while the iterator (its guard) is kept, every component stays at its place."
  },
  {
   "property": "C42",
   "status": "partial",
   "theorems": [
    "C42_release_refuted",
    "C42_release_partial",
    "C42_release_wraps",
    "C42_debug",
    "C42_in_memory"
   ],
   "note": "False of release builds (witness). Proved for debug builds for every n, for release builds for n + alive < 2^64, and what happens beyond."
  },
  {
   "property": "C43",
   "status": "partial",
   "theorems": [
    "C43_create_panics_refuted",
    "C43_shared_id_refuted",
    "C43_no_remove_partial",
    "C43_own_partial",
    "C43_any_history_partial"
   ],
   "note": "False of the code when another thread removes the entity: witnesses. Proved for all schedules of threads that do not remove entities (or attach/detach grouped types), and of threads that remove only entities of their own (SpecApart.v). C43_any_history_partial: also holds of every history that does not remove the longest waiting id again (C15), whatever else it does (`tidy`, SpecLoose.v)."
  },
  {
   "property": "C44",
   "status": "partial",
   "theorems": [
    "C44_remove_twice_refuted",
    "C44_own_partial",
    "C44_ids_partial"
   ],
   "note": "False of the code: witness. Proved for threads that remove only entities of their own (SpecApart.v)."
  },
  {
   "property": "C45",
   "status": "proved",
   "theorems": [
    "C45_calls_end",
    "C45_iterators_end",
    "C45_bound_harmless",
    "C45_loop_once",
    "C38_runs_end"
   ],
   "note": "For every world and call; the exceptions are the calls that wait for a lock of their own thread (C22, C34). C38_runs_end is the statement for several threads."
  },
  {
   "property": "C46",
   "status": "proved",
   "theorems": [
    "C46_linearizable",
    "C46_follows",
    "C46_any_history"
   ],
   "note": "For calm clients: whole calls, without remove_entity and without attaching or detaching grouped types (C40, C43, C44 show those calls are not atomic), keeping no guards between calls. C46_any_history: also holds of every history that does not remove the longest waiting id again (C15), whatever else it does (`tidy`, SpecLoose.v)."
  },
  {
   "property": "C47",
   "status": "proved",
   "theorems": [
    "C47_panic_changes_nothing",
    "C47_outside_rules"
   ],
   "note": "For every call within the rules of use (C47_outside_rules: make_group over an unregistered type is the exception)."
  },
  {
   "property": "C48",
   "status": "partial",
   "theorems": [
    "C48_refused_partial",
    "C48_never_handed",
    "C48_accepted",
    "C48_refused_refuted",
    "C48_any_history"
   ],
   "note": "False of the removed id that has waited longest (witness); proved for every other id. C48_any_history: also holds of every history that does not remove the longest waiting id again (C15), whatever else it does (`tidy`, SpecLoose.v)."
  },
  {
   "property": "C49",
   "status": "proved",
   "theorems": [
    "C49_call",
    "C49_call_blocks",
    "C49_call_crashes",
    "C49_history",
    "C49_new_entity",
    "C49_entity",
    "C49_new_entities",
    "C49_handle_attach",
    "C49_handle_detach",
    "C49_handle_batch",
    "C49_one_thread"
   ],
   "note": "Also the link between the two models: ModelConc.v run by one thread is ModelStep.v."
  },
  {
   "property": "C50",
   "status": "proved",
   "theorems": [
    "C50_own_answers",
    "C50_own_end"
   ],
   "note": "For threads that make whole calls and keep the discipline `minds` (SpecApart.v), the other threads keeping it too, guards and handles allowed for them. If still = false any thread may overwrite any value, and the theorems speak of presence only."
  },
  {
   "property": "C51",
   "status": "proved",
   "theorems": [
    "C51_conserved",
    "C51_one_call",
    "C51_remove_entity",
    "C51_in_place",
    "C51_no_copies",
    "C51_handed_back_once"
   ],
   "note": "C51_conserved (exact account) for histories keeping the rules of use; the others for every history whatever (changes in place by a query counted only in C51_conserved and C51_in_place)."
  },
  {
   "property": "C52",
   "status": "proved",
   "theorems": [
    "C52_no_copies",
    "C52_handed_over_once",
    "C52_one_winner"
   ],
   "note": "For all threads that do not change values in place by a function of the old value (QueryMut and writing through items: there the old value is not moved but changed). C52_no_copies: any use of the library, any world. C52_handed_over_once: the same with the answers the threads got, for threads that make calls one after the other."
  },
  {
   "property": "C53",
   "status": "proved",
   "theorems": [
    "C53_order",
    "C53_one_call"
   ],
   "note": "Histories `loose` and `tidy` (SpecLoose.v), without the other rules of use; no group names the type (groups reorder the storages they own: C26, C28)."
  },
  {
   "property": "C54",
   "status": "proved",
   "theorems": [
    "C54_phases",
    "C54_nothing_left",
    "C54_alone",
    "C54_turn",
    "C54_safe",
    "C54_values",
    "C54_like",
    "C54_types",
    "C54_resources",
    "C54_no_copies",
    "C54_linearizable"
   ],
   "note": "ModelLife.v: the world shared and used exclusively by turns. C54_safe, C54_values, C54_like for `orderly` lives (SpecLife.v: the restrictions C07, C30, C33 make necessary, judged action by action); C54_turn for threads that take locks in order (C38); C54_linearizable for calm calls (C46); C54_no_copies for threads that do not change values in place (C52); the rest without restrictions."
  },
  {
   "property": "C55",
   "status": "proved",
   "theorems": [
    "C55_ids",
    "C55_new_ids"
   ],
   "note": "For every life in which nobody removes the id that has waited longest (C13, C15); nothing is asked of what else threads and exclusive calls do."
  },
  {
   "property": "C56",
   "status": "proved",
   "theorems": [
    "C56_ids_conserved",
    "C56_same_id"
   ],
   "note": "For every life in which nobody removes the id that has waited longest (C13, C15). The threads whose ids are counted make whole calls; the others do anything."
  },
  {
   "property": "C57",
   "status": "proved",
   "theorems": [
    "C57_only_wait",
    "C57_nothing_new",
    "C57_waits_forever",
    "C57_frozen",
    "C57_call",
    "C57_lives",
    "C57_lives_safe",
    "C57_lives_wait",
    "C57_needs",
    "C57_nothing_lost",
    "C57_forgets",
    "C57_lost_exact",
    "C57_only_forgotten",
    "C57_lost_stay",
    "C57_hindered",
    "C57_frozen_life"
   ],
   "note": "All schedules, any threads; a stopped thread is one that is never scheduled again: its guards stay. Then whole lives of a world (as in C54) in which any guard may be forgotten at any time (ModelForget.v; exclusive calls take their locks as the code does). remove_entity enumerates each storage once (no_twice), as a map does. C57_needs names the locks per call and world (group kinds and types); only for remove_entity it over-approximates: any group, all storages."
  },
  {
   "property": "C58",
   "status": "partial",
   "theorems": [
    "C58_safe_partial",
    "C58_values",
    "C58_like",
    "C58_guards_exclude",
    "C58_nothing_left",
    "C58_released",
    "C58_turn",
    "C58_types",
    "C58_resources",
    "C58_no_copies",
    "C58_ids",
    "C58_new_ids",
    "C58_remove",
    "C58_all_or_nothing",
    "C58_group_refuted"
   ],
   "note": "A user alone: C58_remove (a removal of an entity in no group, broken off anywhere, leaves the world after detaching a first part of its components, or after the whole call), C58_all_or_nothing (calls that work on one storage, the manager or a resource once are made or not). Lives of a world as in C54, in which any user may be broken off at any moment, any number of times (ModelBreak.v). Proved in full but for group queries (and under the orderliness of C54: ids not zero, no batch attach onto existing components): a remove_entity broken off after one group leaves other groups with the entity, and iterating over them is undefined behaviour, also after removing the entity again (C58_group_refuted). Kept objects: any but iterators. C58_turn: for clients taking locks in order (C38)."
  }
 ]
}
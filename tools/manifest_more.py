c('C33','partial',['C33_no_ub_partial','C33_iterator_no_ub_partial','C33_rules_partial','C33_no_ub_refuted'],'False of the code (three witnesses). Proved for every history, rules of use or not, without group queries and double batch attach; and for every history keeping the rules of use.')
c('C36','proved',['C36_guards_exclude','C36_same_thread','C36_writer','C36_protected','C36_shared','C36_no_race','C36_shape','C36_kept_guards','C36_no_leak','C36_objects_exclude','C36_own_objects_exclude','C36_kept_protected','C36_repeatable_reads','C36_repeatable_iteration','C36_waits_exactly'],'All schedules, any number of threads, any clients. The last seven say it in terms of the objects a thread keeps (SpecKeep.v).')
c('C37','proved',['C37_entities_kept','C37_handle_guard','C37_self_wait','C37_no_create_under_handle','C37_no_remove_under_handle','C37_handle_alive','C37_handle_freezes'],'C37_handle_alive: the entity of every Entity handle any thread keeps exists, under every schedule. The handle keeps the id from being added or removed; it does not keep remove_entity from stripping components before it waits (see C44, DESIGN.md).')
c('C38','partial',['C38_ordered_partial','C38_never_deadlocked_partial','C38_all_finish_partial','C38_runs_end','C38_fair_partial','C38_group_refuted','C38_query_refuted','C38_read_twice_refuted','C38_handle_asks_refuted','C38_wait_chain','C38_deadlock_is_ring','C38_ring_is_stuck','C38_any_order','C38_fair_ring'],'False of the code (four witnesses; the last two with parking_lot\'s rule that readers wait behind waiting writers). Proved for threads that take locks in an order compatible with the groups; for all threads, a deadlock is a ring of threads waiting for each other and a ring never moves again (C38_deadlock_is_ring, C38_ring_is_stuck), so any order on the locks in use rules it out (C38_any_order).')
c('C39','partial',['C39_no_crash_partial','C39_calls_safe_partial','C39_values_partial','C39_apart_partial','C39_group_race_refuted'],'First three: for clients without group queries and without batch attach onto existing components (C07). C39_apart_partial: with queries of and iterators over owning groups, for threads that divide the entities among themselves, batch attaches to their own new entities included. C39_group_race_refuted: without the discipline a group query can be undefined behaviour. Missing: non-owning groups, which go stale without any threads (C30).')
c('C40','partial',['C40_race_refuted','C40_mixed_refuted','C40_apart_partial'],'False of the code: witnesses. C40_apart_partial: true for threads that divide the entities among themselves (SpecApart.v).')
c('C43','partial',['C43_create_panics_refuted','C43_shared_id_refuted','C43_no_remove_partial','C43_own_partial'],'False of the code when another thread removes the entity: witnesses. Proved for all schedules of threads that do not remove entities (or attach/detach grouped types), and of threads that remove only entities of their own (SpecApart.v).')
c('C46','proved',['C46_linearizable','C46_follows'],'For calm clients: whole calls, without remove_entity and without attaching or detaching grouped types (C40, C43, C44 show those calls are not atomic), keeping no guards between calls.')
c('C44','partial',['C44_remove_twice_refuted','C44_own_partial','C44_ids_partial'],'False of the code: witness. Proved for threads that remove only entities of their own (SpecApart.v).')
c('C45','proved',['C45_calls_end','C45_iterators_end','C45_bound_harmless','C45_loop_once','C38_runs_end'],'For every world and call; the exceptions are the calls that wait for a lock of their own thread (C22, C34). C38_runs_end is the statement for several threads.')
c('C41','partial',['C41_dangling_refuted','C41_other_entity_refuted','C41_from_id_alias_refuted','C41_while_guarded_partial','C41_iterator_guards'],'False of the code: items outlive the guard (witnesses). Proved for all schedules: while the iterator (its guard) is kept, every component stays at its place.')
c('C42','partial',['C42_release_refuted','C42_release_partial','C42_release_wraps','C42_debug','C42_in_memory'],'False of release builds (witness). Proved for debug builds for every n, for release builds for n + alive < 2^64, and what happens beyond.')
c('C47','proved',['C47_panic_changes_nothing','C47_outside_rules'],'For every call within the rules of use (C47_outside_rules: make_group over an unregistered type is the exception).')
c('C48','partial',['C48_refused_partial','C48_never_handed','C48_accepted','C48_refused_refuted'],'False of the removed id that has waited longest (witness); proved for every other id.')

c('C49','proved',['C49_call','C49_call_blocks','C49_call_crashes','C49_history','C49_new_entity','C49_entity','C49_new_entities','C49_handle_attach','C49_handle_detach','C49_handle_batch','C49_one_thread'],'Also the link between the two models: ModelConc.v run by one thread is ModelStep.v.')
c('C50','proved',['C50_own_answers','C50_own_end'],'For threads that make whole calls and keep the discipline `minds` (SpecApart.v), the other threads keeping it too, guards and handles allowed for them. If still = false any thread may overwrite any value, and the theorems speak of presence only.')
c('C51','proved',['C51_conserved','C51_one_call','C51_remove_entity','C51_in_place','C51_no_copies','C51_handed_back_once'],'C51_conserved (exact account) for histories keeping the rules of use; the others for every history whatever (changes in place by a query counted only in C51_conserved and C51_in_place).')
c('C52','proved',['C52_no_copies','C52_handed_over_once','C52_one_winner'],'For all threads that do not change values in place by a function of the old value (QueryMut and writing through items: there the old value is not moved but changed). C52_no_copies: any use of the library, any world. C52_handed_over_once: the same with the answers the threads got, for threads that make calls one after the other.')

c('C53','proved',['C53_order','C53_one_call'],'Histories `loose` and `tidy` (SpecLoose.v), without the other rules of use; no group names the type (groups reorder the storages they own: C26, C28).')
c('C54','proved',['C54_phases','C54_nothing_left','C54_alone','C54_turn','C54_safe','C54_values','C54_like','C54_types','C54_resources','C54_no_copies','C54_linearizable'],'ModelLife.v: the world shared and used exclusively by turns. C54_safe, C54_values, C54_like for `orderly` lives (SpecLife.v: the restrictions C07, C30, C33 make necessary, judged action by action); C54_turn for threads that take locks in order (C38); C54_linearizable for calm calls (C46); C54_no_copies for threads that do not change values in place (C52); the rest without restrictions.')
c('C55','proved',['C55_ids','C55_new_ids'],'For every life in which nobody removes the id that has waited longest (C13, C15); nothing is asked of what else threads and exclusive calls do.')
c('C56','proved',['C56_ids_conserved','C56_same_id'],'For every life in which nobody removes the id that has waited longest (C13, C15). The threads whose ids are counted make whole calls; the others do anything.')
c('C57','proved',['C57_only_wait','C57_nothing_new','C57_waits_forever','C57_frozen','C57_call','C57_lives','C57_lives_safe','C57_lives_wait','C57_needs','C57_nothing_lost','C57_forgets','C57_lost_exact','C57_only_forgotten','C57_lost_stay','C57_hindered','C57_frozen_life'],'All schedules, any threads; a stopped thread is one that is never scheduled again: its guards stay. Then whole lives of a world (as in C54) in which any guard may be forgotten at any time (ModelForget.v; exclusive calls take their locks as the code does). remove_entity enumerates each storage once (no_twice), as a map does. C57_needs names the locks per call and world (group kinds and types); only for remove_entity it over-approximates: any group, all storages.')
c('C58','partial',['C58_safe_partial','C58_values','C58_like','C58_guards_exclude','C58_nothing_left','C58_released','C58_turn','C58_types','C58_resources','C58_no_copies','C58_ids','C58_new_ids','C58_remove','C58_all_or_nothing','C58_group_refuted'],'A user alone: C58_remove (a removal of an entity in no group, broken off anywhere, leaves the world after detaching a first part of its components, or after the whole call), C58_all_or_nothing (calls that work on one storage, the manager or a resource once are made or not). Lives of a world as in C54, in which any user may be broken off at any moment, any number of times (ModelBreak.v). Proved in full but for group queries (and under the orderliness of C54: ids not zero, no batch attach onto existing components): a remove_entity broken off after one group leaves other groups with the entity, and iterating over them is undefined behaviour, also after removing the entity again (C58_group_refuted). Kept objects: any but iterators. C58_turn: for clients taking locks in order (C38).')
# The theorems without the rules of use (PropLoose.v, PropLooseEnt.v).
def also(i,th,note=''):
    R[i]['theorems']+=th
    R[i]['note']=(R[i]['note']+' '+note).strip()
_any=' also holds without the rules of use, after panics and with groups in any state (histories `loose`, SpecLoose.v).'
_tidy=' also holds of every history that does not remove the longest waiting id again (C15), whatever else it does (`tidy`, SpecLoose.v).'
also('C01',['C01_any_history'],'C01_any_history:'+_any)
also('C02',['C02_any_history','C02_gains_any_history'],'C02_any_history: the exact effect of every call on every component,'+_any.replace(' also holds',''))
also('C03',['C21_any_history'],'C21_any_history:'+_any)
also('C04',['C04_detached_any_history'])
also('C08',['C08_any_history'],'C08_any_history:'+_tidy)
also('C09',['C09_any_history'],'C09_any_history:'+_tidy)
also('C10',['C10_any_history'],'C10_any_history:'+_tidy)
also('C11',['C11_any_history'],'C11_any_history:'+_tidy)
also('C12',['C12_any_history'],'C12_any_history:'+_tidy)
also('C13',['C13_any_history'],'C13_any_history: the exact answer'+_tidy)
also('C14',['C14_any_history'],'C14_any_history: the exact answer'+_tidy)
also('C15',['C15_any_history'],'C15_any_history: the exact answer'+_tidy)
also('C18',['C18_new_entities_any_history','C18_new_entity_any_history'],'The two _any_history theorems need only `loose` and `tidy`.')
also('C21',['C21_any_history'],'C21_any_history:'+_any)
also('C22',['C22_any_history','C22_not_fine_any_history'],'C22_any_history: every query without groups; it'+_any)
also('C23',['C23_any_history'],'C23_any_history: every query without groups; it'+_any)
also('C24',['C24_any_history'],'C24_any_history: every query without groups; it'+_any)
also('C25',['C25_any_history','C25_no_alias_any_history'],'C25_any_history: every query without groups; it'+_any)
also('C26',['C26_any_history'],'C26_any_history:'+_any)
also('C33',['C33_any_history'],'C33_any_history: the calls a history may contain are judged one by one (`loose`).')
also('C06',['C06_any_history'],'C06_any_history:'+_any)
also('C16',['C16_any_history'],'C16_any_history:'+_any+' If the call panics, the entity lives on with some or all of its components.')
also('C17',['C17_any_history'],'C17_any_history:'+_any)
also('C48',['C48_any_history'],'C48_any_history:'+_tidy)
also('C46',['C46_any_history'],'C46_any_history:'+_tidy)
also('C43',['C43_any_history_partial'],'C43_any_history_partial:'+_tidy)
also('C31',['C31_bad_order'],'C31_bad_order: every removal from two groups of which the first owns a type of the second leaves the second counting one too many.')
also('C32',['C32_batch_exact','C32_attach_heals'],'C32_batch_exact: no batch attach changes the answer of any owning group; C32_attach_heals: a later single attach of one of the two types puts the entity in.')

(* Generated by tools/assumptions.py.  What each claimed theorem rests on:
   coqc prints `Closed under the global context' for every one of them. *)
From Verif Require PropApart PropApartSafe PropBreak PropBreak2 PropBreak3 PropComp PropConc PropConc2 PropCycle PropEntity PropFair PropForget PropForgetLife PropGroup PropGroup2 PropIds PropItems PropKeep PropKeep2 PropLife PropLife2 PropLin PropLin2 PropLoose PropLooseEnt PropMore PropOrder PropOverflow PropOwn PropQuery PropQuery2 PropReject PropRes PropSafe PropSeq PropStale PropTerm PropValue PropValue2 PropWorld.
Print Assumptions Verif.PropComp.C01_read_last_written.
Print Assumptions Verif.PropComp.C01_storage_get.
Print Assumptions Verif.PropLoose.C01_any_history.
Print Assumptions Verif.PropComp.C02_frame.
Print Assumptions Verif.PropLoose.C02_any_history.
Print Assumptions Verif.PropLooseEnt.C02_gains_any_history.
Print Assumptions Verif.PropComp.C03_dense.
Print Assumptions Verif.PropComp.C03_unregistered.
Print Assumptions Verif.PropLoose.C21_any_history.
Print Assumptions Verif.PropComp.C04_detach_exact.
Print Assumptions Verif.PropComp.C04_detach_partial.
Print Assumptions Verif.PropComp.C04_detach_refuted.
Print Assumptions Verif.PropLoose.C04_detached_any_history.
Print Assumptions Verif.PropComp.C05_attach_in_place.
Print Assumptions Verif.PropComp.C06_batch_one_by_one.
Print Assumptions Verif.PropComp.C06_batch_answer.
Print Assumptions Verif.PropOrder.C06_any_history.
Print Assumptions Verif.PropComp.C07_batch_twice_refuted.
Print Assumptions Verif.PropMore.C07_batch_exact.
Print Assumptions Verif.PropEntity.C08_create_fresh.
Print Assumptions Verif.PropLooseEnt.C08_any_history.
Print Assumptions Verif.PropEntity.C09_create_recycles_lifo.
Print Assumptions Verif.PropEntity.C09_waiting_exact.
Print Assumptions Verif.PropLooseEnt.C09_any_history.
Print Assumptions Verif.PropEntity.C10_create_entities.
Print Assumptions Verif.PropLooseEnt.C10_any_history.
Print Assumptions Verif.PropEntity.C11_no_id_leak.
Print Assumptions Verif.PropLooseEnt.C11_any_history.
Print Assumptions Verif.PropEntity.C12_exist_live.
Print Assumptions Verif.PropLooseEnt.C12_any_history.
Print Assumptions Verif.PropEntity.C13_exist_removed_partial.
Print Assumptions Verif.PropEntity.C13_exist_always_wrong_about_one.
Print Assumptions Verif.PropEntity.C13_exist_removed_refuted.
Print Assumptions Verif.PropLooseEnt.C13_any_history.
Print Assumptions Verif.PropEntity.C14_exist_total_partial.
Print Assumptions Verif.PropEntity.C14_exist_total_refuted.
Print Assumptions Verif.PropLooseEnt.C14_any_history.
Print Assumptions Verif.PropEntity.C15_remove_dead_partial.
Print Assumptions Verif.PropEntity.C15_remove_dead_refuted.
Print Assumptions Verif.PropLooseEnt.C15_any_history.
Print Assumptions Verif.PropComp.C16_remove_exact.
Print Assumptions Verif.PropOrder.C16_any_history.
Print Assumptions Verif.PropComp.C17_remove_order.
Print Assumptions Verif.PropOrder.C17_any_history.
Print Assumptions Verif.PropEntity.C18_new_entities_bare.
Print Assumptions Verif.PropEntity.C18_new_entity_bare.
Print Assumptions Verif.PropEntity.C18_new_entity_bare_refuted.
Print Assumptions Verif.PropLooseEnt.C18_new_entities_any_history.
Print Assumptions Verif.PropLooseEnt.C18_new_entity_any_history.
Print Assumptions Verif.PropWorld.C19_no_confusion.
Print Assumptions Verif.PropWorld.C19_guard_iff_registered.
Print Assumptions Verif.PropWorld.C20_has_registered.
Print Assumptions Verif.PropWorld.C20_register_new.
Print Assumptions Verif.PropWorld.C20_register_again.
Print Assumptions Verif.PropWorld.C20_permanent.
Print Assumptions Verif.PropQuery.C21_ref_exact.
Print Assumptions Verif.PropQuery.C21_unregistered.
Print Assumptions Verif.PropQuery.C21_len_exact.
Print Assumptions Verif.PropQuery.C22_query_exact.
Print Assumptions Verif.PropQuery.C22_tuple_join_partial.
Print Assumptions Verif.PropQuery2.C22_join_exact.
Print Assumptions Verif.PropQuery2.C22_left_out_refuted.
Print Assumptions Verif.PropQuery.C22_not_fine.
Print Assumptions Verif.PropLoose.C22_any_history.
Print Assumptions Verif.PropLoose.C22_not_fine_any_history.
Print Assumptions Verif.PropQuery.C23_without_partial.
Print Assumptions Verif.PropQuery2.C23_without_exact.
Print Assumptions Verif.PropQuery2.C23_left_out_refuted.
Print Assumptions Verif.PropLoose.C23_any_history.
Print Assumptions Verif.PropQuery.C24_iterator_calls_partial.
Print Assumptions Verif.PropQuery.C24_from_id_partial.
Print Assumptions Verif.PropQuery.C24_next.
Print Assumptions Verif.PropQuery2.C24_exact.
Print Assumptions Verif.PropQuery2.C24_from_id_exact.
Print Assumptions Verif.PropQuery2.C24_driven_by_ref.
Print Assumptions Verif.PropQuery2.C24_next_is_next_with_id.
Print Assumptions Verif.PropQuery.C24_left_out_refuted.
Print Assumptions Verif.PropLoose.C24_any_history.
Print Assumptions Verif.PropQuery.C25_each_written_once_partial.
Print Assumptions Verif.PropQuery.C25_no_alias_partial.
Print Assumptions Verif.PropQuery.C25_items_alive.
Print Assumptions Verif.PropQuery2.C25_written_exact.
Print Assumptions Verif.PropQuery2.C25_stale_refuted.
Print Assumptions Verif.PropLoose.C25_any_history.
Print Assumptions Verif.PropLoose.C25_no_alias_any_history.
Print Assumptions Verif.PropComp.C26_make_group_changes_nothing.
Print Assumptions Verif.PropLoose.C26_any_history.
Print Assumptions Verif.PropGroup.C27_refused_iff.
Print Assumptions Verif.PropGroup.C27_only_make_group.
Print Assumptions Verif.PropGroup.C27_one_owner.
Print Assumptions Verif.PropGroup.C27_rules.
Print Assumptions Verif.PropGroup.C28_full_owning.
Print Assumptions Verif.PropGroup.C29_partial_owning.
Print Assumptions Verif.PropGroup.C30_non_owning_partial.
Print Assumptions Verif.PropStale.C30_size_hint.
Print Assumptions Verif.PropStale.C30_not_in_group.
Print Assumptions Verif.PropStale.C30_right_entities.
Print Assumptions Verif.PropGroup.C30_non_owning_refuted.
Print Assumptions Verif.PropGroup.C31_good_order.
Print Assumptions Verif.PropGroup.C31_remove_keeps_groups_partial.
Print Assumptions Verif.PropGroup.C31_order_refuted.
Print Assumptions Verif.PropGroup2.C31_bad_order.
Print Assumptions Verif.PropGroup.C32_batch_refuted.
Print Assumptions Verif.PropGroup.C32_batch_before_partial.
Print Assumptions Verif.PropGroup2.C32_batch_exact.
Print Assumptions Verif.PropGroup2.C32_attach_heals.
Print Assumptions Verif.PropSafe.C33_no_ub_partial.
Print Assumptions Verif.PropSafe.C33_iterator_no_ub_partial.
Print Assumptions Verif.PropSafe.C33_rules_partial.
Print Assumptions Verif.PropSafe.C33_no_ub_refuted.
Print Assumptions Verif.PropLoose.C33_any_history.
Print Assumptions Verif.PropGroup.C34_refused_unchanged_partial.
Print Assumptions Verif.PropGroup.C34_poisoned.
Print Assumptions Verif.PropGroup.C34_failed_refuted.
Print Assumptions Verif.PropWorld.C35_resource_value.
Print Assumptions Verif.PropWorld.C35_independent.
Print Assumptions Verif.PropRes.C35_unseen.
Print Assumptions Verif.PropConc.C36_guards_exclude.
Print Assumptions Verif.PropConc.C36_same_thread.
Print Assumptions Verif.PropConc.C36_writer.
Print Assumptions Verif.PropConc.C36_protected.
Print Assumptions Verif.PropConc.C36_shared.
Print Assumptions Verif.PropConc.C36_no_race.
Print Assumptions Verif.PropConc.C36_shape.
Print Assumptions Verif.PropKeep.C36_kept_guards.
Print Assumptions Verif.PropKeep.C36_no_leak.
Print Assumptions Verif.PropKeep.C36_objects_exclude.
Print Assumptions Verif.PropKeep.C36_own_objects_exclude.
Print Assumptions Verif.PropKeep.C36_kept_protected.
Print Assumptions Verif.PropKeep2.C36_repeatable_reads.
Print Assumptions Verif.PropKeep2.C36_repeatable_iteration.
Print Assumptions Verif.PropCycle.C36_waits_exactly.
Print Assumptions Verif.PropConc.C37_entities_kept.
Print Assumptions Verif.PropConc.C37_handle_guard.
Print Assumptions Verif.PropConc.C37_self_wait.
Print Assumptions Verif.PropConc.C37_no_create_under_handle.
Print Assumptions Verif.PropConc.C37_no_remove_under_handle.
Print Assumptions Verif.PropKeep.C37_handle_alive.
Print Assumptions Verif.PropKeep.C37_handle_freezes.
Print Assumptions Verif.PropConc.C38_ordered_partial.
Print Assumptions Verif.PropConc.C38_never_deadlocked_partial.
Print Assumptions Verif.PropConc.C38_all_finish_partial.
Print Assumptions Verif.PropConc.C38_runs_end.
Print Assumptions Verif.PropFair.C38_fair_partial.
Print Assumptions Verif.PropConc2.C38_group_refuted.
Print Assumptions Verif.PropConc2.C38_query_refuted.
Print Assumptions Verif.PropFair.C38_read_twice_refuted.
Print Assumptions Verif.PropFair.C38_handle_asks_refuted.
Print Assumptions Verif.PropCycle.C38_wait_chain.
Print Assumptions Verif.PropCycle.C38_deadlock_is_ring.
Print Assumptions Verif.PropCycle.C38_ring_is_stuck.
Print Assumptions Verif.PropCycle.C38_any_order.
Print Assumptions Verif.PropCycle.C38_fair_ring.
Print Assumptions Verif.PropConc.C39_no_crash_partial.
Print Assumptions Verif.PropConc.C39_calls_safe_partial.
Print Assumptions Verif.PropConc.C39_values_partial.
Print Assumptions Verif.PropApartSafe.C39_apart_partial.
Print Assumptions Verif.PropApartSafe.C39_group_race_refuted.
Print Assumptions Verif.PropConc2.C40_race_refuted.
Print Assumptions Verif.PropConc2.C40_mixed_refuted.
Print Assumptions Verif.PropApart.C40_apart_partial.
Print Assumptions Verif.PropItems.C41_dangling_refuted.
Print Assumptions Verif.PropItems.C41_other_entity_refuted.
Print Assumptions Verif.PropItems.C41_from_id_alias_refuted.
Print Assumptions Verif.PropItems.C41_while_guarded_partial.
Print Assumptions Verif.PropItems.C41_iterator_guards.
Print Assumptions Verif.PropOverflow.C42_release_refuted.
Print Assumptions Verif.PropOverflow.C42_release_partial.
Print Assumptions Verif.PropOverflow.C42_release_wraps.
Print Assumptions Verif.PropOverflow.C42_debug.
Print Assumptions Verif.PropOverflow.C42_in_memory.
Print Assumptions Verif.PropConc2.C43_create_panics_refuted.
Print Assumptions Verif.PropConc2.C43_shared_id_refuted.
Print Assumptions Verif.PropLin.C43_no_remove_partial.
Print Assumptions Verif.PropOwn.C43_own_partial.
Print Assumptions Verif.PropLin2.C43_any_history_partial.
Print Assumptions Verif.PropConc2.C44_remove_twice_refuted.
Print Assumptions Verif.PropOwn.C44_own_partial.
Print Assumptions Verif.PropOwn.C44_ids_partial.
Print Assumptions Verif.PropTerm.C45_calls_end.
Print Assumptions Verif.PropTerm.C45_iterators_end.
Print Assumptions Verif.PropTerm.C45_bound_harmless.
Print Assumptions Verif.PropTerm.C45_loop_once.
Print Assumptions Verif.PropLin.C46_linearizable.
Print Assumptions Verif.PropLin.C46_follows.
Print Assumptions Verif.PropLin2.C46_any_history.
Print Assumptions Verif.PropReject.C47_panic_changes_nothing.
Print Assumptions Verif.PropReject.C47_outside_rules.
Print Assumptions Verif.PropReject.C48_refused_partial.
Print Assumptions Verif.PropReject.C48_never_handed.
Print Assumptions Verif.PropReject.C48_accepted.
Print Assumptions Verif.PropReject.C48_refused_refuted.
Print Assumptions Verif.PropOrder.C48_any_history.
Print Assumptions Verif.PropSeq.C49_call.
Print Assumptions Verif.PropSeq.C49_call_blocks.
Print Assumptions Verif.PropSeq.C49_call_crashes.
Print Assumptions Verif.PropSeq.C49_history.
Print Assumptions Verif.PropSeq.C49_new_entity.
Print Assumptions Verif.PropSeq.C49_entity.
Print Assumptions Verif.PropSeq.C49_new_entities.
Print Assumptions Verif.PropSeq.C49_handle_attach.
Print Assumptions Verif.PropSeq.C49_handle_detach.
Print Assumptions Verif.PropSeq.C49_handle_batch.
Print Assumptions Verif.PropSeq.C49_one_thread.
Print Assumptions Verif.PropOwn.C50_own_answers.
Print Assumptions Verif.PropOwn.C50_own_end.
Print Assumptions Verif.PropValue.C51_conserved.
Print Assumptions Verif.PropValue.C51_one_call.
Print Assumptions Verif.PropValue.C51_remove_entity.
Print Assumptions Verif.PropValue.C51_in_place.
Print Assumptions Verif.PropValue.C51_no_copies.
Print Assumptions Verif.PropValue.C51_handed_back_once.
Print Assumptions Verif.PropValue2.C52_no_copies.
Print Assumptions Verif.PropValue2.C52_handed_over_once.
Print Assumptions Verif.PropValue2.C52_one_winner.
Print Assumptions Verif.PropOrder.C53_order.
Print Assumptions Verif.PropOrder.C53_one_call.
Print Assumptions Verif.PropLife.C54_phases.
Print Assumptions Verif.PropLife.C54_nothing_left.
Print Assumptions Verif.PropLife.C54_alone.
Print Assumptions Verif.PropLife.C54_turn.
Print Assumptions Verif.PropLife.C54_safe.
Print Assumptions Verif.PropLife.C54_values.
Print Assumptions Verif.PropLife.C54_like.
Print Assumptions Verif.PropLife.C54_types.
Print Assumptions Verif.PropLife.C54_resources.
Print Assumptions Verif.PropLife.C54_no_copies.
Print Assumptions Verif.PropLin2.C54_linearizable.
Print Assumptions Verif.PropLife2.C55_ids.
Print Assumptions Verif.PropLife2.C55_new_ids.
Print Assumptions Verif.PropIds.C56_ids_conserved.
Print Assumptions Verif.PropIds.C56_same_id.
Print Assumptions Verif.PropForget.C57_only_wait.
Print Assumptions Verif.PropForget.C57_nothing_new.
Print Assumptions Verif.PropForget.C57_waits_forever.
Print Assumptions Verif.PropForget.C57_frozen.
Print Assumptions Verif.PropForget.C57_call.
Print Assumptions Verif.PropForgetLife.C57_lives.
Print Assumptions Verif.PropForgetLife.C57_lives_safe.
Print Assumptions Verif.PropForgetLife.C57_lives_wait.
Print Assumptions Verif.PropForgetLife.C57_needs.
Print Assumptions Verif.PropForgetLife.C57_nothing_lost.
Print Assumptions Verif.PropForgetLife.C57_forgets.
Print Assumptions Verif.PropForgetLife.C57_lost_exact.
Print Assumptions Verif.PropForgetLife.C57_only_forgotten.
Print Assumptions Verif.PropForgetLife.C57_lost_stay.
Print Assumptions Verif.PropForgetLife.C57_hindered.
Print Assumptions Verif.PropForgetLife.C57_frozen_life.
Print Assumptions Verif.PropBreak.C58_safe_partial.
Print Assumptions Verif.PropBreak.C58_values.
Print Assumptions Verif.PropBreak.C58_like.
Print Assumptions Verif.PropBreak.C58_guards_exclude.
Print Assumptions Verif.PropBreak.C58_nothing_left.
Print Assumptions Verif.PropBreak.C58_released.
Print Assumptions Verif.PropBreak.C58_turn.
Print Assumptions Verif.PropBreak.C58_types.
Print Assumptions Verif.PropBreak.C58_resources.
Print Assumptions Verif.PropBreak2.C58_no_copies.
Print Assumptions Verif.PropBreak2.C58_ids.
Print Assumptions Verif.PropBreak2.C58_new_ids.
Print Assumptions Verif.PropBreak3.C58_remove.
Print Assumptions Verif.PropBreak3.C58_all_or_nothing.
Print Assumptions Verif.PropBreak.C58_group_refuted.

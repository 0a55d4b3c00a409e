#!/usr/bin/env python3
"""Regenerates MANIFEST.json; checks that each named theorem exists."""
import json,re,glob
names=set()
for f in glob.glob('/verif/rocq/theories/*.v'):
    names|=set(re.findall(r'^\s*(?:Theorem|Lemma|Corollary|Example)\s+(\w+)',open(f).read(),re.M))
R={}
def c(i,st,th,note): R[i]=dict(property=i,status=st,theorems=th,note=note)
c('C01','proved',['C01_read_last_written','C01_storage_get'],'')
c('C02','proved',['C02_frame'],'')
c('C03','proved',['C03_dense','C03_unregistered'],'')
c('C04','partial',['C04_detach_exact','C04_detach_partial','C04_detach_refuted'],'False of the code: detaching a type the entity lacks panics when the id equals the length of the index table (sparse_set.rs:70 strict guard). C04_detach_refuted is the witness; C04_detach_exact says exactly what happens in every case.')
c('C05','proved',['C05_attach_in_place'],'')
c('C06','proved',['C06_batch_one_by_one','C06_batch_answer'],'')
c('C07','partial',['C07_batch_twice_refuted','C07_batch_exact'],'False of the code: the second batch appends instead of overwriting (witness for every n). C07_batch_exact: what every batch does - the entities read their new values, but count and data grow by the whole batch.')
c('C08','proved',['C08_create_fresh'],'')
c('C09','proved',['C09_create_recycles_lifo','C09_waiting_exact'],'')
c('C10','proved',['C10_create_entities'],'')
c('C11','proved',['C11_no_id_leak'],'')
c('C12','proved',['C12_exist_live'],'')
c('C13','partial',['C13_exist_removed_partial','C13_exist_always_wrong_about_one','C13_exist_removed_refuted'],'False of the code for the oldest waiting id (and only for it): exact characterisation proved.')
c('C14','partial',['C14_exist_total_partial','C14_exist_total_refuted'],'False of the code: panics for ids never handed out; total on all the others.')
c('C15','partial',['C15_remove_dead_partial','C15_remove_dead_refuted'],'False for the oldest waiting id; proved for all others.')
c('C16','proved',['C16_remove_exact'],'')
c('C17','proved',['C17_remove_order'],'')
c('C18','partial',['C18_new_entities_bare','C18_new_entity_bare','C18_new_entity_bare_refuted'],'create_entities: proved. create_entity: proved for histories that attach to live entities only; refuted for those that attach to the oldest waiting (dead) id, which the API accepts.')
c('C19','proved',['C19_no_confusion','C19_guard_iff_registered'],'')
c('C20','proved',['C20_has_registered','C20_register_new','C20_register_again','C20_permanent'],'')
c('C21','proved',['C21_ref_exact','C21_unregistered','C21_len_exact'],'')
c('C22','partial',['C22_query_exact','C22_tuple_join_partial','C22_join_exact','C22_left_out_refuted','C22_not_fine'],'True of all queries without groups, and with groups in order (undisturbed, nobody left out): C22_query_exact, C22_tuple_join_partial. False with an owning group that left out an entity (C32) as second part: witness. C22_join_exact: what a join is then - the visits of the first part for which the others answer from_id.')
c('C23','partial',['C23_without_partial','C23_without_exact','C23_left_out_refuted'],'As C22: proved for queries without groups or with groups in order; witness and exact behaviour (from_id of B) for owning groups that left out an entity.')
c('C24','partial',['C24_iterator_calls_partial','C24_from_id_partial','C24_next','C24_exact','C24_from_id_exact','C24_driven_by_ref','C24_next_is_next_with_id','C24_left_out_refuted'],'False of the code: from_id of an owning group answers for entities the group left out (batch attach). Exact: the iteration visits what from_id answers for minus what the driving group left out. The second half (next = next_with_id without ids, mixed in any way) is proved of every history and query: C24_next_is_next_with_id.')
c('C25','partial',['C25_each_written_once_partial','C25_no_alias_partial','C25_items_alive','C25_written_exact','C25_stale_refuted'],'False of the code for non-owning groups whose stored positions have gone stale (C30): two items of one iteration refer mutably to the same component (witness). Proved for all other queries, left-out entities included.')
c('C26','proved',['C26_make_group_changes_nothing'],'')
c('C27','proved',['C27_refused_iff','C27_only_make_group','C27_one_owner','C27_rules'],'')
c('C28','proved',['C28_full_owning'],'')
c('C29','proved',['C29_partial_owning'],'')
c('C30','partial',['C30_non_owning_partial','C30_size_hint','C30_not_in_group','C30_right_entities','C30_non_owning_refuted'],'False of the code: the group stores dense positions that go stale. Proved for undisturbed groups; for disturbed ones, what survives: the right entities (size_hint, who is not in it, the ids iterated).')
c('C31','partial',['C31_good_order','C31_remove_keeps_groups_partial','C31_order_refuted'],'False of the code: witness; proved for the good creation order.')
c('C32','partial',['C32_batch_refuted','C32_batch_before_partial'],'False of the code: Entities::attach never updates groups. Proved for batches made before the group.')
c('C34','partial',['C34_refused_unchanged_partial','C34_poisoned','C34_failed_refuted'],'False when a type is not registered (group pushed before the panic); proved for refusals.')
c('C35','proved',['C35_resource_value','C35_independent','C35_unseen'],'')
exec(open('/verif/tools/manifest_more.py').read()) if glob.glob('/verif/tools/manifest_more.py') else None
for r in R.values():
    for t in r['theorems']:
        assert t in names,t
json.dump({'claims':[R[k] for k in sorted(R)]},open('/verif/MANIFEST.json','w'),indent=1)
print(len(R),'claims')

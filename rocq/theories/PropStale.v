(** C30, continued: what is still true of a non-owning group after components of
    its types have moved.  It lists the right entities (their number, who is
    not in it); what is wrong is the components shown with them. *)
From stdpp Require Import prelude list gmap.
From Verif Require Import Base Api ModelSparse ModelEntity ModelGroup ModelWorld ModelQuery ModelStep
  Spec History Rules Samples ProofSparse ProofEntity ProofGroup ProofWorld ProofOps ProofOps2 ProofRemove ProofRemove2
  ProofQuery ProofQuery2 ProofQuery3 ProofQueryMut ProofMain ProofHistory ProofQuery4 ProofHistory2 Checks
  PropEntity PropComp PropWorld PropQuery PropGroup.

Section stale.
Context {V : Type}.
Implicit Types (ops : list (op V)) (w : world V).

Lemma non_opens ops ma mb a b : rules ops -> (KNon, a, b) ∈ groups_of (seen ops) -> a <> b \/ (ma || mb) = false ->
  exists gi d ag sa sb h, query_open (after ops) (QGroup KNon ma mb a b) [] = (Ret (iter_non ma mb a b gi), h) /\
    w_groups (after ops) !! gi = Some (GNon d) /\ non_ok (nd_set d) (st_set sa) (st_set sb) (ag_mem ag) (ag_fresh ag) /\
    w_comps (after ops) !! a = Some sa /\ w_comps (after ops) !! b = Some sb /\
    (forall id, id ∈ ag_mem ag <-> in_group (seen ops) KNon a b id).
Proof.
  intros L Hg Hab. destruct (reached ops L) as [H A]. pose proof (agree2_exec ops L) as A2.
  destruct (group_types ops KNon a b L Hg) as (Ta & Tb & _).
  rewrite (ag_grp _ _ A) in Hg. apply same_key in Hg. cbn [query_open].
  set (w := after ops) in *. set (aw := aexec ops a_init) in *.
  apply (ag_reg _ _ A) in Ta, Tb.
  rewrite !(has_registered_spec w aw _ (R_st _ _ H)). rewrite bind_assert_true by (by rewrite !bool_decide_true).
  unfold ModelQuery.lock. unfold bind at 1. unfold bind at 1. cbn [get lock_conflict existsb put].
  unfold bind at 1. unfold bind at 1. cbn [get].
  assert (lock_conflict [(a, ma)] b mb = false) as E.
  { unfold lock_conflict. simpl. destruct Hab as [Hab|Hab]; [by rewrite (proj2 (Nat.eqb_neq a b) Hab)|].
    rewrite Hab. by rewrite andb_false_r. }
  rewrite E. cbn [put].
  rewrite (bind_ret _ _ _ _ _ (downcast_ok w aw a _ H Ta)). rewrite (bind_ret _ _ _ _ _ (downcast_ok w aw b _ H Tb)).
  rewrite (has_group_spec w aw KNon a b H). rewrite bind_assert_true by done.
  rewrite find_existsb in Hg. destruct (List.find (ag_same KNon a b) (a_groups aw)) as [ag0|] eqn:Ef; [|done].
  pose proof (find_group_spec (w_comps w) (w_groups w) (a_groups aw) KNon a b 0 (R_gr _ _ H)) as Fg.
  destruct (find_group (new_group KNon a b) (w_groups w) 0) as [gi|] eqn:EFg; [|congruence].
  destruct Fg as (j & g & ag & -> & Hgj & Hag & Hfind & [Hs Hne (sa & sb & Ha & Hb & Hd)] & Hsame). simpl.
  rewrite bind_retv. rewrite Hgj. cbn [unwrap]. rewrite bind_retv.
  apply ag_same_inv in Hsame as (K & EA & EB).
  destruct g as [d|d|d]; simpl in Hs; destruct Hs as (K' & EA' & EB'); try congruence. simpl in Hd.
  exists j, d, ag, sa, sb, [(b, mb); (a, ma)]. rewrite <- EA, <- EB. split; [by rewrite EA, EB|].
  split; [done|]. split; [done|]. split; [done|]. split; [done|].
  intros id. rewrite (ag_left _ _ A2); [|by eapply elem_of_list_lookup_2]. unfold in_group, has. fold aw.
  by rewrite !(ag_val _ _ A), K.
Qed.

(** However much the group has been disturbed: *)
(** [size_hint] of a new iterator is the number of entities in the group, *)
Theorem C30_size_hint ops ma mb a b : rules ops -> (KNon, a, b) ∈ groups_of (seen ops) -> a <> b \/ (ma || mb) = false ->
  exists m : gset nat, (forall id, id ∈ m <-> in_group (seen ops) KNon a b id) /\
    use ops (QGroup KNon ma mb a b) [CHint] = Ret [AHint (Some (size m))].
Proof.
  intros L Hg Hab. destruct (non_opens ops ma mb a b L Hg Hab) as (gi & d & ag & sa & sb & h & Eo & Hgi & Hd & Ha & Hb & Hm).
  exists (ag_mem ag). split; [done|]. unfold use, use_query. rewrite Eo. simpl. unfold bind, run_call, gcount. simpl.
  rewrite Hgi. simpl. do 4 f_equal. rewrite Nat.sub_0_r. destruct Hd as (W & He & _). unfold ss_len.
  assert (ag_mem ag = list_to_set (entities (nd_set d))) as ->.
  { apply set_eq. intros e. by rewrite elem_of_list_to_set. }
  rewrite size_list_to_set; [done|]. by apply wf_nodup.
Qed.
(** [from_id] of an entity that is not in the group says so, *)
Theorem C30_not_in_group ops ma mb a b id : rules ops -> (KNon, a, b) ∈ groups_of (seen ops) -> a <> b \/ (ma || mb) = false ->
  ~ in_group (seen ops) KNon a b id -> use ops (QGroup KNon ma mb a b) [CFromId id] = Ret [AItem None].
Proof.
  intros L Hg Hab Hn. destruct (non_opens ops ma mb a b L Hg Hab) as (gi & d & ag & sa & sb & h & Eo & Hgi & Hd & Ha & Hb & Hm).
  destruct Hd as (W & He & _). unfold use, use_query. rewrite Eo. set (w := after ops) in *.
  assert (ss_get (nd_set d) id = Ret None) as Hnone.
  { assert (ss_get_index (nd_set d) id = None) as Hp.
    { apply eq_None_not_Some. rewrite <- elem_pos by done. rewrite <- He. by rewrite Hm. }
    unfold ss_get. unfold ss_get_index in Hp. by destruct (indices (nd_set d) !! id) as [[k|]|]. }
  assert (qi_from_id (iter_non ma mb a b gi) w id 0 = (Ret None, 0)) as E.
  { cbn [qi_from_id iter_non]. unfold gptr, ptr, bind, ret, lift. rewrite Hgi, Ha, Hb. by rewrite Hnone. }
  cbn [run_calls]. unfold bind at 1. unfold run_call. cbn [qi_init iter_non] in *.
  match goal with |- context [qi_from_id ?J w id ?x] => change (qi_from_id J w id x) with (qi_from_id (iter_non ma mb a b gi) w id 0) end.
  by rewrite E.
Qed.
(** and an iteration that does not run into undefined behaviour goes through
    exactly the entities in the group, each once. *)
Theorem C30_right_entities ops ma mb a b : rules ops -> (KNon, a, b) ∈ groups_of (seen ops) -> a <> b \/ (ma || mb) = false ->
  answer ops (Query (QGroup KNon ma mb a b)) = UB \/
  exists l, answer ops (Query (QGroup KNon ma mb a b)) = Ret (OItems l) /\ NoDup l.*1 /\
    forall id, id ∈ l.*1 <-> in_group (seen ops) KNon a b id.
Proof.
  intros L Hg Hab. destruct (non_opens ops ma mb a b L Hg Hab) as (gi & d & ag & sa & sb & h & Eo & Hgi & Hd & Ha & Hb & Hm).
  destruct Hd as (W & He & _). unfold answer. cbn [step]. unfold bind at 1, get, fmapM, bind, lift, run_query.
  rewrite Eo. set (w := after ops) in *. set (J := iter_non ma mb a b gi).
  assert (forall fuel i, length (entities (nd_set d)) - i < fuel -> collect fuel w J i = UB \/
    exists l, collect fuel w J i = Ret l /\ l.*1 = drop i (entities (nd_set d))) as X.
  { assert (forall i, qi_next_id J w i = (UB, i) \/
      (length (entities (nd_set d)) <= i /\ qi_next_id J w i = (Ret None, i)) \/
      (exists e it, entities (nd_set d) !! i = Some e /\ qi_next_id J w i = (Ret (Some (e, it)), i + 1))) as Nx.
    { intros i. set (P := fun r : outcome (option (nat * item)) * nat => r = (UB, i) \/
        (length (entities (nd_set d)) <= i /\ r = (Ret None, i)) \/
        (exists e it, entities (nd_set d) !! i = Some e /\ r = (Ret (Some (e, it)), i + 1))).
      change (P (qi_next_id J w i)). cbn [qi_next_id J iter_non]. unfold bind at 1, get, bind at 1, gptr. rewrite Hgi. cbn [ret].
      unfold ss_len. destruct (i <? length (entities (nd_set d))) eqn:Ei.
      - apply Nat.ltb_lt in Ei. destruct (lookup_lt_is_Some_2 _ _ Ei) as [e He'].
        destruct (lookup_lt_is_Some_2 (sdata (nd_set d)) i) as [[ja jb] Hj]; [by rewrite <- (wf_len _ W)|].
        rewrite He', Hj. unfold ptr. rewrite Ha, Hb. unfold bind, ret, data_unchecked, put.
        destruct (ja <? length (sdata (st_set sa))); [|by left]. destruct (jb <? length (sdata (st_set sb))); [|by left].
        right. right. eexists _, _. split; [exact He'|reflexivity].
      - apply Nat.ltb_ge in Ei. by right; left. }
    induction fuel as [|fuel IH]; intros i Hf; [lia|]. cbn [collect].
    destruct (Nx i) as [->|[[Hl ->]|(e & it & He' & ->)]]; [by left| |].
    - right. exists []. split; [done|]. by rewrite drop_ge.
    - destruct (deref w it) as [v|]; [|by left]. pose proof (lookup_lt_Some _ _ _ He').
      destruct (IH (i + 1)) as [E|(l & E & El)]; [lia| |].
      + left. change (qi_st J) with nat in *. by rewrite E.
      + right. change (qi_st J) with nat in *. rewrite E. eexists. split; [done|]. rewrite (drop_S _ _ _ He').
        by rewrite fmap_cons, El, Nat.add_1_r. }
  assert (qi_fuel J w (qi_init J) = length (entities (nd_set d))) as ->.
  { cbn. unfold gcount. rewrite Hgi. simpl. unfold ss_len. lia. }
  destruct (X (S (length (entities (nd_set d)))) 0) as [E|(l & E & El)]; [lia| |].
  - left. change (qi_init J) with 0. by rewrite E.
  - right. exists l. change (qi_init J) with 0. rewrite E. split; [done|]. rewrite El. simpl. rewrite drop_0.
    split; [by apply wf_nodup|]. intros id. by rewrite <- He, Hm.
Qed.
End stale.

(** A disturbed group (the witness of C30_non_owning_refuted, where the
    component shown is another entity's) meets the hypotheses. *)
Example C30_stale_case : rules h30 /\ (KNon, 1, 2) ∈ groups_of (seen h30) /\
  in_group (seen h30) KNon 1 2 2 /\ ~ in_group (seen h30) KNon 1 2 1 /\
  use h30 (QGroup KNon false false 1 2) [CHint; CFromId 1; CNextId] =
    Ret [AHint (Some 1); AItem None; AIdItem (Some (2, V2 (VLeaf 13) (VLeaf 22)))] /\
  value_of (seen h30) 1 2 = Some 12.
Proof.
  split; [check_rules|]. split; [by_compute|].
  split; [split; [by eexists|]; split; [by eexists|]; by vm_compute|].
  split; [intros ([x H] & _); revert H; by vm_compute|]. split; by vm_compute.
Qed.

(** Batch attach, reads and writes, resources, make_group. *)
From stdpp Require Import prelude list gmap.
From Verif Require Import Base Api ModelSparse ModelEntity ModelGroup ModelWorld ModelStep
  Spec ProofSparse ProofEntity ProofGroup ProofWorld ProofOps.

Section ops.
Context {V : Type}.
Notation world := (world V).
Notation storage := (storage V).
Implicit Types (w : world) (aw : aworld V) (cs : gmap nat storage) (ac : gmap nat (gmap nat V)).

(** ** Batch attach *)
Lemma foldl_max_seq n lo k : foldl (fun n e => n `max` S e) n (seq lo k) = if k =? 0 then n else n `max` (lo + k).
Proof.
  revert n lo. induction k as [|k IH]; intros n lo; [done|]. simpl. rewrite IH.
  destruct (Nat.eqb_spec k 0); lia.
Qed.

Lemma batch_spec w aw lo hi t vs : R w aw -> registered aw t -> length vs = hi - lo ->
  (forall id, lo <= id < hi -> comp aw t id = None) ->
  exists w', entities_attach lo hi t vs w = (Ret tt, w') /\ R w' (a_batch lo hi t vs aw).
Proof.
  intros H [m Hm] Hl Hf. unfold entities_attach. rewrite bind_assert_true by (by apply Nat.eqb_eq).
  destruct (srel_Some _ _ _ _ _ (R_st _ _ H) Hm) as (st & Hst & Ty & Rt).
  assert (forall e, e ∈ seq lo (hi - lo) -> m !! e = None) as Hfm.
  { intros e He. apply elem_of_seq in He. specialize (Hf e ltac:(lia)). unfold comp in Hf.
    rewrite Hm in Hf. done. }
  destruct (add_seq_rep (seq lo (hi - lo)) vs _ _ _ Rt) as (s' & Es & Rs & En & Ps);
    [by rewrite seq_length|apply NoDup_seq|done|].
  rewrite <- add_batch_seq in Es; [|apply Rt|by rewrite seq_length|apply NoDup_seq|].
  2:{ intros e He. apply (rep_None_pos _ _ _ _ Rt). by apply Hfm. }
  rewrite (storage_mut_spec w aw t m (ss_add_batch (seq lo (hi - lo)) vs) (Ret tt) s' H Hm).
  2:{ intros st0 Hst0 _. assert (st0 = st) as -> by congruence. exact Es. }
  eexists. split; [done|].
  assert (srel (<[t:=St t s']> (w_comps w)) (a_comps (a_batch lo hi t vs aw)) (a_slots (a_batch lo hi t vs aw))) as S1.
  { assert (a_comps (a_batch lo hi t vs aw) = <[t := list_to_map (zip (seq lo (hi - lo)) vs) ∪ m]> (a_comps aw)) as ->.
    { unfold a_batch. destruct (lo <? hi); simpl; by rewrite (alter_Some _ _ _ _ Hm). }
    rewrite <- Ty at 2. eapply srel_ext; [|eapply srel_insert; [apply H|done|done]].
    intros u. simpl. rewrite foldl_max_seq. unfold a_batch.
    destruct (Nat.ltb_spec lo hi); simpl.
    - case_decide; [subst|done]. destruct (Nat.eqb_spec (hi - lo) 0); [lia|]. f_equal. lia.
    - replace (hi - lo) with 0 by lia. simpl. case_decide; [by subst|done]. }
  assert (a_groups (a_batch lo hi t vs aw) = a_groups aw) as Eg by (unfold a_batch; by destruct (lo <? hi)).
  split.
  - unfold a_batch. destruct (lo <? hi); apply H.
  - done.
  - rewrite Eg. simpl. eapply Forall2_impl; [apply H|]. intros g ag Hg.
    rewrite <- Ty at 2. eapply gok_append; [apply H|done|done| |].
    + intros n Hn. rewrite En. by rewrite take_app_le.
    + intros e He. split; [rewrite En; apply elem_of_app; by left|]. apply Ps. by apply (rep_elem _ _ _ _ Rt).
  - rewrite Eg. apply H.
  - unfold a_batch. destruct (lo <? hi); apply H.
Qed.

(** ** Reads *)
Lemma components_read_spec w aw t : R w aw ->
  match a_comps aw !! t with
  | None => components_read t w = Ret None
  | Some m => exists s, components_read t w = Ret (Some s) /\ ss_rep s m (a_slots aw t) /\
      w_comps w !! t = Some (St t s)
  end.
Proof.
  intros H. destruct (a_comps aw !! t) as [m|] eqn:Hm.
  - destruct (srel_Some _ _ _ _ _ (R_st _ _ H) Hm) as (st & Hst & Ty & Rt).
    exists (st_set st). unfold components_read. rewrite Hst, Ty, Nat.eqb_refl. split_and!; [done..|].
    destruct st; simpl in *; congruence.
  - apply (srel_None _ _ _ t (R_st _ _ H)) in Hm. unfold components_read. by rewrite Hm.
Qed.

Lemma via_storage_spec {A} w aw t (f : sset V -> outcome A) : R w aw ->
  match a_comps aw !! t with
  | None => via_storage t f w = (Ret None, w)
  | Some m => exists s, ss_rep s m (a_slots aw t) /\
     forall a, f s = Ret a -> via_storage t f w = (Ret (Some a), w)
  end.
Proof.
  intros H. pose proof (components_read_spec w aw t H) as C. unfold via_storage. rewrite bind_get.
  destruct (a_comps aw !! t) as [m|].
  - destruct C as (s & C & Rs & _). exists s. split; [done|]. intros a Ha. rewrite C, bind_lift, Ha. done.
  - by rewrite C.
Qed.

Lemma read_spec w aw t id : R w aw -> entity_component_read t id w = (Ret (comp aw t id), w).
Proof.
  intros H. pose proof (components_read_spec w aw t H) as C. unfold entity_component_read, comp.
  rewrite bind_get. destruct (a_comps aw !! t) as [m|]; simpl.
  2:{ by rewrite C. }
  destruct C as (s & C & Rs & _). rewrite C, bind_lift. rewrite (rep_exist _ _ _ id Rs).
  destruct (m !! id) as [v|] eqn:Ev; simpl.
  - rewrite <- (rep_lookup _ _ _ Rs) in Ev. unfold ss_lookup in Ev.
    destruct (ss_get_index s id) as [i|] eqn:Ei; [|done].
    rewrite (get_unchecked_wf _ _ _ (rep_wf _ _ _ Rs) Ei). rewrite bind_lift. by rewrite Ev.
  - done.
Qed.

(** overwriting the value of an entity *)
Lemma poke_spec w aw t s m id i v : R w aw -> a_comps aw !! t = Some m -> w_comps w !! t = Some (St t s) ->
  ss_rep s m (a_slots aw t) -> ss_get_index s id = Some i ->
  storage_mut t (let! s := get in put (ss_poke i v s)) w =
    (Ret tt, set_comps (<[t := St t (ss_poke i v s)]> (w_comps w)) w) /\
  R (set_comps (<[t := St t (ss_poke i v s)]> (w_comps w)) w) (a_put t id v aw).
Proof.
  intros H Hm Hst Rs Hi. split.
  { unfold storage_mut. rewrite Hst. simpl. by rewrite Nat.eqb_refl. }
  split; try apply H.
  - simpl. rewrite (alter_Some _ _ _ _ Hm). eapply srel_ext; [|eapply (srel_insert _ _ _ _ (St t s)); [apply H|done|]].
    2:{ eapply poke_rep; done. }
    intros u. simpl. case_decide; [by subst|done].
  - simpl. eapply Forall2_impl; [apply H|]. intros g ag Hg.
    eapply (gok_append _ _ _ t (St t s)); [apply H|done|done|done|]. intros e He. done.
Qed.

Lemma write_spec w aw t id v : R w aw ->
  exists w', entity_component_write t id v w = (Ret (bool_decide (has aw t id)), w') /\
    R w' (if decide (has aw t id) then a_put t id v aw else aw).
Proof.
  intros H. pose proof (components_read_spec w aw t H) as C. unfold entity_component_write.
  rewrite bind_get. destruct (a_comps aw !! t) as [m|] eqn:Hm; simpl.
  2:{ rewrite C, bind_lift. exists w. assert (~ has aw t id) as Hn.
      { unfold has, comp. rewrite Hm. simpl. by intros [? ?]. }
      by rewrite bool_decide_false, decide_False by done. }
  destruct C as (s & C & Rs & Hst). rewrite C, bind_lift. rewrite (rep_exist _ _ _ id Rs).
  assert (has aw t id <-> is_Some (m !! id)) as Hh by (unfold has, comp; by rewrite Hm).
  case_bool_decide as B.
  - rewrite bool_decide_true, decide_True by (by apply Hh).
    destruct (proj2 (rep_Some_pos _ _ _ id Rs) B) as [i Hi].
    rewrite (get_unchecked_wf _ _ _ (rep_wf _ _ _ Rs) Hi), bind_lift.
    destruct (poke_spec w aw t s m id i v H Hm Hst Rs Hi) as [E HR].
    rewrite (bind_ret _ _ _ _ _ E). eexists. split; [reflexivity|done].
  - rewrite bool_decide_false, decide_False by (by rewrite Hh). by exists w.
Qed.
Lemma get_mut_spec w aw t id v : R w aw ->
  exists w', storage_get_mut t id v w = (Ret (bool_decide (has aw t id)), w') /\
    R w' (if decide (has aw t id) then a_put t id v aw else aw).
Proof.
  intros H. pose proof (components_read_spec w aw t H) as C. unfold storage_get_mut.
  rewrite bind_get. destruct (a_comps aw !! t) as [m|] eqn:Hm; simpl.
  2:{ rewrite C, bind_lift. exists w. assert (~ has aw t id) as Hn.
      { unfold has, comp. rewrite Hm. simpl. by intros [? ?]. }
      by rewrite bool_decide_false, decide_False by done. }
  destruct C as (s & C & Rs & Hst). rewrite C, bind_lift. rewrite (get_loc_wf _ _ (rep_wf _ _ _ Rs)), bind_lift.
  assert (has aw t id <-> is_Some (m !! id)) as Hh by (unfold has, comp; by rewrite Hm).
  destruct (ss_get_index s id) as [i|] eqn:Hi.
  - assert (is_Some (m !! id)) as B by (apply (rep_Some_pos _ _ _ _ Rs); eauto).
    rewrite bool_decide_true, decide_True by (by apply Hh).
    destruct (poke_spec w aw t s m id i v H Hm Hst Rs Hi) as [E HR].
    rewrite (bind_ret _ _ _ _ _ E). eexists. split; [reflexivity|done].
  - apply (rep_None_pos _ _ _ _ Rs) in Hi.
    assert (~ has aw t id) by (rewrite Hh, Hi; by intros [? ?]).
    rewrite bool_decide_false, decide_False by done. by exists w.
Qed.

(** ** Resources *)
Lemma R_set_res w aw r v : R w aw ->
  R (set_res (<[r := RV r v]> (w_res w)) w) (a_set_res (<[r := v]> (a_res aw)) aw).
Proof.
  intros H. split; try apply H. intros r'. simpl. destruct (decide (r = r')) as [->|Hne].
  - by rewrite !lookup_insert.
  - rewrite !lookup_insert_ne by done. apply H.
Qed.
Lemma resource_read_spec w aw r : R w aw -> resource_read r w = (Ret (a_res aw !! r), w).
Proof.
  intros H. unfold resource_read. rewrite bind_get, (R_res _ _ H).
  destruct (a_res aw !! r); simpl; [|done]. by rewrite Nat.eqb_refl.
Qed.
Lemma resource_write_spec w aw r v : R w aw ->
  exists w', resource_write r v w = (Ret (bool_decide (is_Some (a_res aw !! r))), w') /\
    R w' (if decide (is_Some (a_res aw !! r)) then a_set_res (<[r := v]> (a_res aw)) aw else aw).
Proof.
  intros H. unfold resource_write. rewrite bind_get. rewrite (R_res _ _ H).
  destruct (a_res aw !! r) as [x|]; simpl.
  - rewrite Nat.eqb_refl. eexists. split; [reflexivity|]. by apply R_set_res.
  - by exists w.
Qed.

(** ** make_group *)
Lemma gstat_same g ag k a b : gstat g ag -> g_eqb g (new_group k a b) = ag_same k a b ag.
Proof.
  intros H. destruct g as [d|d|d]; simpl in H; destruct H as (K & A & B); unfold ag_same; rewrite K, A, B;
  destruct k; done.
Qed.
Lemma existsb_Forall2 {A B} (P : A -> B -> Prop) f g l k : Forall2 P l k ->
  (forall x y, P x y -> f x = g y) -> existsb f l = existsb g k.
Proof. intros H E. induction H; [done|]. simpl. by rewrite IHForall2, (E x y). Qed.

Lemma has_group_spec w aw k a b : R w aw ->
  has_group (new_group k a b) w = existsb (ag_same k a b) (a_groups aw).
Proof.
  intros H. unfold has_group. eapply existsb_Forall2; [apply H|].
  intros g ag Hg. apply gstat_same. apply Hg.
Qed.
Lemma owner_conflict_spec w aw k a b : R w aw ->
  owner_conflict (new_group k a b) w =
  existsb (fun h => (ag_owns h a && ag_owns (AG k a b ∅ true) a)
                    || (ag_owns h b && ag_owns (AG k a b ∅ true) b)) (a_groups aw).
Proof.
  intros H. unfold owner_conflict. eapply existsb_Forall2; [apply H|].
  intros g ag Hg. destruct Hg as [Hs _ _]. unfold ag_owns. simpl.
  destruct g as [d|d|d]; simpl in Hs; destruct Hs as (K & A & B); rewrite K, ?A, ?B; simpl; [| |by destruct k].
  - destruct k; simpl; rewrite ?Nat.eqb_refl, ?orb_true_r, ?andb_true_r, ?orb_false_r, ?andb_false_r; simpl; [| |done].
    + repeat match goal with |- context [?x =? ?y] => destruct (Nat.eqb_spec x y); subst; simpl end; done.
    + repeat match goal with |- context [?x =? ?y] => destruct (Nat.eqb_spec x y); subst; simpl end; done.
  - destruct k; simpl; rewrite ?Nat.eqb_refl, ?orb_true_r, ?andb_true_r, ?orb_false_r, ?andb_false_r; simpl; [| |done].
    + repeat match goal with |- context [?x =? ?y] => destruct (Nat.eqb_spec x y); subst; simpl end; done.
    + repeat match goal with |- context [?x =? ?y] => destruct (Nat.eqb_spec x y); subst; simpl end; done.
Qed.

Lemma make_refused_spec w aw k a b : R w aw -> group_refused aw k a b = true ->
  make_group k a b w = (Panic, w).
Proof.
  intros H Hr. unfold make_group. rewrite bind_get. rewrite (has_group_spec w aw k a b H).
  unfold group_refused in Hr.
  destruct (existsb (ag_same k a b) (a_groups aw)); [by rewrite bind_assert_false|].
  rewrite bind_assert_true by done. rewrite (owner_conflict_spec w aw k a b H).
  rewrite bind_assert_false; [done|]. simpl in Hr. by rewrite Hr.
Qed.

Lemma make_spec w aw k a b : R w aw -> group_refused aw k a b = false ->
  registered aw a -> registered aw b -> (a <> b \/ k = KNon) ->
  exists w', make_group k a b w = (Ret tt, w') /\ R w' (a_make k a b aw).
Proof.
  intros H Hr Ha Hb Hne. unfold make_group. rewrite bind_get. rewrite (has_group_spec w aw k a b H).
  unfold group_refused in Hr. apply orb_false_iff in Hr as [Hr1 Hr2].
  rewrite Hr1, bind_assert_true by done.
  rewrite (owner_conflict_spec w aw k a b H). rewrite Hr2, bind_assert_true by done. rewrite bind_put.
  assert (forall g mem fr t, g ∈ a_groups aw -> ag_owns g t = true -> ag_owns (AG k a b mem fr) t = false) as Hsafe.
  { intros g mem fr t Hg Ho. destruct (ag_owns (AG k a b mem fr) t) eqn:E; [|done]. exfalso.
    assert (existsb (fun h => (ag_owns h a && ag_owns (AG k a b ∅ true) a)
                    || (ag_owns h b && ag_owns (AG k a b ∅ true) b)) (a_groups aw) = true) as X; [|congruence].
    apply existsb_exists. exists g. split; [by apply elem_of_list_In|].
    change (ag_owns (AG k a b mem fr) t) with (ag_owns (AG k a b ∅ true) t) in E.
    pose proof (owns_types _ _ E) as T. unfold ag_types in T. simpl in T.
    apply orb_true_iff in T as [T|T]; apply Nat.eqb_eq in T; subst t; rewrite Ho, E; [done|by rewrite orb_true_r]. }
  set (w1 := set_groups (w_groups w ++ [new_group k a b]) w).
  assert (w_groups w1 !! length (w_groups w) = Some (new_group k a b)) as Hi.
  { simpl. rewrite lookup_app_r by lia. by rewrite Nat.sub_diag. }
  destruct (run_make w1 (a_comps aw) (a_slots aw) (length (w_groups w)) k a b) as (cs' & g' & E & P);
    [apply H|done|tauto|done|done|].
  rewrite E. eexists. split; [done|].
  set (h := AG k a b (both aw a b) true).
  assert (<[length (w_groups w) := g']> (w_groups w ++ [new_group k a b]) = w_groups w ++ [g']) as El.
  { rewrite insert_app_r_alt by lia. by rewrite Nat.sub_diag. }
  split; try apply H.
  - simpl. apply P.
  - simpl. rewrite El. apply Forall2_app.
    + apply Forall2_fmap_r. apply Forall2_same_length_lookup. split; [eapply Forall2_length; apply H|].
      intros j g ag Hg Hag. pose proof (Forall2_lookup_lr _ _ _ _ _ _ (R_gr _ _ H) Hg Hag) as Hok.
      eapply (run_post_other (w_comps w) (a_comps aw) (a_slots aw) _ cs'); [apply H|exact P| | |].
      * apply gok_weaken; [done|]. intros Hx. by apply andb_true_iff in Hx as [? _].
      * intros t Ho. destruct (ag_owns (g_made (AG k a b (both aw a b) true) ag) t) eqn:Eo; [|done].
        assert (ag_owns ag t = true) as Eo' by exact Eo.
        pose proof (Hsafe ag ∅ true t ltac:(by eapply elem_of_list_lookup_2) Eo') as X. unfold ag_owns in X, Ho. simpl in X, Ho. congruence.
      * simpl. intros Hx. apply andb_true_iff in Hx as [_ Hx]. apply negb_true_iff, orb_false_iff in Hx. done.
    + constructor; [|constructor]. pose proof (rp_gok _ _ _ _ _ _ _ P) as Hk. exact Hk.
  - simpl. intros i j g g2 t Hij Hgi Hgj Ho.
    assert (j <= length (a_groups aw)) as Hj.
    { apply lookup_lt_Some in Hgj. rewrite app_length, fmap_length in Hgj. simpl in Hgj. lia. }
    rewrite lookup_app_l in Hgi by (rewrite fmap_length; lia).
    rewrite list_lookup_fmap in Hgi. destruct (a_groups aw !! i) as [g0|] eqn:Hg0; [|done]. injection Hgi as <-.
    assert (ag_owns g0 t = true) as Ho0 by exact Ho.
    destruct (decide (j < length (a_groups aw))).
    + rewrite lookup_app_l in Hgj by (rewrite fmap_length; lia).
      rewrite list_lookup_fmap in Hgj. destruct (a_groups aw !! j) as [h0|] eqn:Hh0; [|done]. injection Hgj as <-.
      exact (R_safe _ _ H i j g0 h0 t Hij Hg0 Hh0 Ho0).
    + rewrite lookup_app_r in Hgj by (rewrite fmap_length; lia). rewrite fmap_length in Hgj.
      replace (j - length (a_groups aw)) with 0 in Hgj by lia. injection Hgj as <-.
      apply (Hsafe g0); [by eapply elem_of_list_lookup_2|done].
Qed.

End ops.

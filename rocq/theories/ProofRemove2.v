(** remove_entity whatever the groups: the storages come out right even when
    an entity is in a group and in a later group one of whose types the first
    one owns (then only the later group is left wrong). *)
From stdpp Require Import prelude list gmap sorting.
From Verif Require Import Base Api ModelSparse ModelEntity ModelGroup ModelWorld ModelStep
  Spec ProofSparse ProofEntity ProofGroup ProofWorld ProofOps ProofRemove.

Section remove.
Context {V : Type}.
Notation world := (world V).
Notation storage := (storage V).
Implicit Types (w : world) (aw : aworld V) (cs : gmap nat storage) (ac : gmap nat (gmap nat V)).

Lemma gok_same cs cs' (g : group) ag : gok cs g ag -> cs' !! ag_a ag = cs !! ag_a ag ->
  cs' !! ag_b ag = cs !! ag_b ag -> gok cs' g ag.
Proof.
  intros [St Ne (sa & sb & Ha & Hb & Hd)] Ea Eb. split; [done|done|]. exists sa, sb. rewrite Ea, Eb. done.
Qed.

(** a group whose borrowed type has already lost the entity *)
Lemma run_delete_gone w ac sl i g ag id cs0 : srel (w_comps w) ac sl -> w_groups w !! i = Some g ->
  gok cs0 g ag -> 
  (forall t, ag_owns ag t = true -> hasc ac t id) ->
  is_Some (ac !! ag_a ag) -> is_Some (ac !! ag_b ag) ->
  (exists t, ag_types ag t = true /\ ag_owns ag t = false /\ ~ hasc ac t id) ->
  exists cs' g', run_group_at i
      (full_remove id >>! on_a (cs_remove id) >>! on_b (cs_remove id))
      (part_remove id >>! on_a (cs_remove id)) (non_remove id) w =
      (Ret tt, set_groups (<[i := g']> (w_groups w)) (set_comps cs' w)) /\
    srel cs' (del_owned ag id ac) sl /\
    forall t, ag_owns ag t = false -> cs' !! t = w_comps w !! t.
Proof.
  intros S Hi [St Ne _] Hown [ma Hma] [mb Hmb] (t0 & Ht0 & Ho0 & Hh0).
  destruct (srel_Some _ _ _ _ _ S Hma) as (sa & Ha & Tya & Ra).
  destruct (srel_Some _ _ _ _ _ S Hmb) as (sb & Hb & Tyb & Rb).
  destruct g as [d|d|d]; simpl in St; destruct St as (K & EA & EB).
  - exfalso. unfold ag_types in Ht0. unfold ag_owns in Ho0. rewrite K in Ho0. congruence.
  - destruct Ne as [?|Ne]; [congruence|].
    assert (t0 = ag_b ag) as ->.
    { unfold ag_types in Ht0. unfold ag_owns in Ho0. rewrite K in Ho0. rewrite Ho0 in Ht0. simpl in Ht0.
      by apply Nat.eqb_eq in Ht0. }
    assert (ss_exist (st_set sb) id = false) as Eb.
    { rewrite (rep_exist _ _ _ _ Rb). apply bool_decide_false. intros Hs. apply Hh0. unfold hasc. by rewrite Hmb. }
    assert (hasc ac (ag_a ag) id) as [va Hva].
    { apply Hown. unfold ag_owns. rewrite K. by apply Nat.eqb_eq. }
    rewrite Hma in Hva. simpl in Hva.
    destruct (cs_remove_rep id _ _ _ va Ra Hva) as (a2 & ia & ela & Ea & Ra2 & Pa & La & Na).
    rewrite EA in Ha. rewrite EB in Hb.
    assert ((part_remove id >>! on_a (cs_remove id)) (GC d (st_set sa) (st_set sb))
       = (Ret tt, GC d a2 (st_set sb))) as E2.
    { assert (part_remove id (GC d (st_set sa) (st_set sb)) = (Ret tt, GC d (st_set sa) (st_set sb))) as E1.
      { unfold part_remove. rewrite bind_get. cbn [gc_a gc_b gc_d]. unfold part_in_group, in_components.
        rewrite Eb, andb_false_r. done. }
      rewrite (bind_ret _ _ _ _ _ E1). unfold on_a. cbn [gc_a gc_b gc_d]. by rewrite Ea. }
    assert (pd_a d <> pd_b d) as Ne' by congruence.
    rewrite (run_group_part w i d sa sb _ _ _ _ Hi Ha Hb Ne' E2). eexists _, _. split; [done|].
    cbn [gc_a gc_b gc_d]. split.
    + intros t. rewrite del_owned_lookup. unfold ag_owns. rewrite K, EA.
      destruct (decide (t = pd_a d)) as [->|Ha1].
      * rewrite lookup_insert, Nat.eqb_refl. rewrite EA in Hma, Tya, Ra2. rewrite Hma. simpl. done.
      * rewrite lookup_insert_ne by done. destruct (Nat.eqb_spec (pd_a d) t); try congruence. apply S.
    + intros t Ho. unfold ag_owns in Ho. rewrite K, EA in Ho.
      apply Nat.eqb_neq in Ho. by rewrite !lookup_insert_ne.
  - assert (in_components (st_set sa) (st_set sb) id = false) as Ein.
    { unfold in_components. rewrite (rep_exist _ _ _ _ Ra), (rep_exist _ _ _ _ Rb).
      unfold hasc in Hh0. unfold ag_types in Ht0. apply orb_true_iff in Ht0 as [Ht0|Ht0]; apply Nat.eqb_eq in Ht0; subst t0.
      - rewrite Hma in Hh0. simpl in Hh0. by rewrite (bool_decide_false (is_Some (ma !! id))).
      - rewrite Hmb in Hh0. simpl in Hh0. rewrite (bool_decide_false (is_Some (mb !! id))) by done. by rewrite andb_false_r. }
    rewrite EA in Ha. rewrite EB in Hb.
    assert (non_remove id (GC d (st_set sa) (st_set sb)) = (Ret tt, GC d (st_set sa) (st_set sb))) as E1.
    { unfold non_remove. rewrite bind_get. cbn [gc_a gc_b gc_d]. unfold non_in_group. rewrite Ein. done. }
    rewrite (run_group_non w i d sa sb _ _ _ _ Hi Ha Hb E1). eexists _, _. split; [done|]. split; [|done].
    assert (del_owned ag id ac = ac) as ->; [|done].
    apply map_eq. intros t. rewrite del_owned_lookup. unfold ag_owns. by rewrite K.
Qed.

(** the loop over the groups *)
Lemma remove_groups_any cs0 ac0 sl id ags gs0 L w ac :
  GI cs0 gs0 ac0 sl ags ->
  srel (w_comps w) ac sl -> pdel id ac0 ac -> length (w_groups w) = length gs0 ->
  (forall i, i ∈ L -> exists ag g, ags !! i = Some ag /\ gs0 !! i = Some g /\ w_groups w !! i = Some g /\ id ∈ ag_mem ag) ->
  (forall i ag t, i ∈ L -> ags !! i = Some ag -> ag_types ag t = true ->
     w_comps w !! t = cs0 !! t \/ ag_owns ag t = false /\ ~ hasc ac t id) ->
  NoDup L ->
  exists cs' gs' ac', for_each L (fun i => run_group_at i
      (full_remove id >>! on_a (cs_remove id) >>! on_b (cs_remove id))
      (part_remove id >>! on_a (cs_remove id)) (non_remove id)) w
     = (Ret tt, set_groups gs' (set_comps cs' w)) /\
    srel cs' ac' sl /\ pdel id ac0 ac'.
Proof.
  intros G0. revert w ac. induction L as [|i L IH]; intros w ac S P Hlen HL Hty ND.
  - exists (w_comps w), (w_groups w), ac. simpl. rewrite set_groups_comps_id. done.
  - apply NoDup_cons in ND as [Hni ND].
    destruct (HL i (elem_of_list_here _ _)) as (ag & g & Hag & Hg0 & Hg & Hid).
    pose proof (Forall2_lookup_lr _ _ _ _ _ _ (gi_gok _ _ _ _ _ G0) Hg0 Hag) as Hok0.
    destruct (gok_mem _ _ _ _ _ _ (gi_srel _ _ _ _ _ G0) Hok0 Hid) as (ma & mb & Hma & Hmb & I1 & I2).
    assert (forall t, is_Some (ac0 !! t) -> is_Some (ac !! t)) as Hreg.
    { intros t [m Hm]. destruct (P t) as [->| ->]; rewrite Hm; simpl; eauto. }
    (* an unchanged type of the group still has the entity *)
    assert (forall t, ag_types ag t = true -> w_comps w !! t = cs0 !! t -> hasc ac t id) as Hsame.
    { intros t Ht E. assert (exists m0, ac0 !! t = Some m0 /\ is_Some (m0 !! id)) as (m0 & Hm0 & Hs).
      { unfold ag_types in Ht. apply orb_true_iff in Ht as [Ht|Ht]; apply Nat.eqb_eq in Ht; subst t; eauto. }
      destruct (Hreg t) as [m Hm]; [eauto|].
      destruct (srel_Some _ _ _ _ _ S Hm) as (st & Hst & _ & Rt).
      destruct (srel_Some _ _ _ _ _ (gi_srel _ _ _ _ _ G0) Hm0) as (st0 & Hst0 & _ & Rt0).
      assert (st0 = st) as -> by congruence. unfold hasc. rewrite Hm. simpl.
      apply (rep_elem _ _ _ _ Rt). by apply (rep_elem _ _ _ _ Rt0). }
    assert (exists cs1 g1, run_group_at i
      (full_remove id >>! on_a (cs_remove id) >>! on_b (cs_remove id))
      (part_remove id >>! on_a (cs_remove id)) (non_remove id) w =
      (Ret tt, set_groups (<[i := g1]> (w_groups w)) (set_comps cs1 w)) /\
      srel cs1 (del_owned ag id ac) sl /\
      forall t, ag_owns ag t = false -> cs1 !! t = w_comps w !! t) as (cs1 & g1 & E1 & S1 & F1).
    { assert (ag_types ag (ag_a ag) = true) as Ta by (unfold ag_types; by rewrite Nat.eqb_refl).
      assert (ag_types ag (ag_b ag) = true) as Tb by (unfold ag_types; rewrite Nat.eqb_refl; by rewrite orb_true_r).
      assert ((w_comps w !! ag_a ag = cs0 !! ag_a ag /\ w_comps w !! ag_b ag = cs0 !! ag_b ag) \/
        exists t, ag_types ag t = true /\ ag_owns ag t = false /\ ~ hasc ac t id) as [[Ea Eb]|Hgone].
      { destruct (Hty i ag _ (elem_of_list_here _ _) Hag Ta) as [?|?]; [|right; exists (ag_a ag); tauto].
        destruct (Hty i ag _ (elem_of_list_here _ _) Hag Tb) as [?|?]; [|right; exists (ag_b ag); tauto].
        by left. }
      - destruct (run_delete w ac sl i g ag id S Hg) as (cs1 & g1 & E1 & D); [|done|].
        { by eapply gok_same. }
        exists cs1, g1. split; [done|]. split; apply D.
      - eapply run_delete_gone; [done|done|exact Hok0| | | |done].
        + intros t Ho. pose proof (owns_types _ _ Ho) as Ht.
          destruct (Hty i ag _ (elem_of_list_here _ _) Hag Ht) as [?|[? _]]; [|congruence]. by apply Hsame.
        + apply Hreg. eauto.
        + apply Hreg. eauto. }
    cbn [for_each]. rewrite (bind_ret _ _ _ _ _ E1).
    destruct (IH (set_groups (<[i := g1]> (w_groups w)) (set_comps cs1 w)) (del_owned ag id ac)) as (cs2 & gs2 & ac2 & E2 & S2 & P2).
    + done.
    + by apply pdel_owned.
    + simpl. by rewrite insert_length.
    + intros j Hj. destruct (HL j (elem_of_list_further _ _ _ Hj)) as (agj & gj & H1 & H2 & H3 & H4).
      exists agj, gj. simpl. rewrite list_lookup_insert_ne; [done|]. by intros ->.
    + intros j agj t Hj Haj Ht. simpl. assert (i <> j) as Hne by (by intros ->).
      destruct (ag_owns ag t) eqn:Ho.
      * right. split.
        -- exact (safe_disj _ _ _ _ _ t (gi_safe _ _ _ _ _ G0) Hne Hag Haj Ho).
        -- unfold hasc. rewrite del_owned_lookup, Ho. destruct (ac !! t); simpl; [rewrite lookup_delete|]; by intros [? ?].
      * rewrite F1 by done. destruct (Hty j agj t (elem_of_list_further _ _ _ Hj) Haj Ht) as [?|[? Hh]]; [by left|right].
        split; [done|]. unfold hasc. rewrite del_owned_lookup, Ho. exact Hh.
    + done.
    + exists cs2, gs2, ac2. rewrite E2. done.
Qed.

Lemma dyn_groups id L w gs :
  for_each L (fun t => dyn_mut t (cs_remove (V := V) id)) (set_groups gs w) =
  (let '(o, w') := for_each L (fun t => dyn_mut t (cs_remove id)) w in (o, set_groups gs w')).
Proof.
  revert w. induction L as [|t L IH]; intros w; [done|]. cbn [for_each]. unfold bind.
  assert (dyn_mut t (cs_remove id) (set_groups gs w) =
     (let '(o, w') := dyn_mut t (cs_remove id) w in (o, set_groups gs w'))) as ->.
  { unfold dyn_mut. cbn [w_comps set_groups]. destruct (w_comps w !! t) as [st|]; [|done]. by destruct (cs_remove id (st_set st)). }
  destruct (dyn_mut t (cs_remove id) w) as [[u| | |] w1]; [apply (IH w1)|done..].
Qed.

Definition ungroup w : world := set_groups [] w.
Lemma R_ungroup w aw : R w aw -> R (ungroup w) (a_set_groups [] aw).
Proof. intros H. split; try apply H; simpl; [constructor|]. intros i j g h t _ Hg. by rewrite lookup_nil in Hg. Qed.
Lemma R_regroup w gs aw : R (ungroup w) aw -> R (ungroup (set_groups gs w)) aw.
Proof. done. Qed.

Lemma remove_any w aw id ord ord' : R w aw -> live aw id -> ord ≡ₚ (map_to_list (a_comps aw)).*1 ->
  ord' ≡ₚ (map_to_list (a_comps aw)).*1 ->
  exists w', remove_entity id ord w = (Ret tt, w') /\ remove_entity id ord' w = (Ret tt, w') /\
    R (ungroup w') (a_set_groups [] (a_remove id aw)).
Proof.
  intros H [Hal Hnf] Hord Hord'. unfold allocated in Hal. unfold remove_entity. rewrite !bind_get.
  rewrite (exist_spec _ _ id H) by lia. unfold a_exist. rewrite decide_False by lia. rewrite !bind_lift.
  rewrite !bind_assert_true by (rewrite bool_decide_true; tauto).
  rewrite (collect_spec w _ _ id _ _ 0 (R_st _ _ H) (R_gr _ _ H)). rewrite !bind_lift.
  assert (GI (w_comps w) (w_groups w) (a_comps aw) (a_slots aw) (a_groups aw)) as G0 by (split; apply H).
  destruct (remove_groups_any _ _ _ id _ _ (mem_pos id (a_groups aw) 0) w (a_comps aw) G0) as (cs1 & gs1 & ac1 & E1 & S1 & P1).
  { apply H. }
  { apply pdel_refl. }
  { done. }
  { intros i. rewrite mem_pos_elem. intros (j & g & -> & Hg & Hin). simpl.
    destruct (Forall2_lookup_r _ _ _ _ _ (R_gr _ _ H) Hg) as (g0 & Hg0 & _). eauto 10. }
  { intros i ag t _ _ _. by left. }
  { pose proof (mem_pos_sorted id (a_groups aw) 0) as So. generalize dependent (mem_pos id (a_groups aw) 0).
    intros L So. induction So as [|x l ? IH Hf]; constructor; [|done]. intros Hin.
    rewrite Forall_forall in Hf. specialize (Hf x Hin). lia. }
  rewrite !(bind_ret _ _ _ _ _ E1). rewrite !bind_get.
  assert (GI (w_comps (ungroup (set_comps cs1 w))) (w_groups (ungroup (set_comps cs1 w))) ac1 (a_slots aw) []) as G1.
  { split; simpl; [done|constructor|]. intros i j g h t _ Hg. by rewrite lookup_nil in Hg. }
  assert (forall o, o ≡ₚ (map_to_list (a_comps aw)).*1 -> NoDup o /\ forall t, is_Some (a_comps aw !! t) -> t ∈ o) as Ho.
  { intros o Eo. split; [rewrite Eo; apply NoDup_fst_map_to_list|]. intros t [m Hm]. rewrite Eo.
    apply elem_of_list_fmap. exists (t, m). split; [done|]. by apply elem_of_map_to_list. }
  destruct (Ho _ Hord) as [ND In]. destruct (Ho _ Hord') as [ND' In'].
  destruct (remove_storages (a_comps aw) (a_slots aw) id ord (ungroup (set_comps cs1 w)) ac1 [] G1 P1)
    as (cs2 & E2 & G2 & C2); [by intros j h Hj|by intros j h Hj|done|done|].
  destruct (remove_storages (a_comps aw) (a_slots aw) id ord' (ungroup (set_comps cs1 w)) ac1 [] G1 P1)
    as (cs3 & E3 & _ & C3); [by intros j h Hj|by intros j h Hj|done|done|].
  assert (cs2 = cs3) as <-.
  { rewrite C2, C3. apply map_eq. intros t.
    rewrite !map_lookup_imap. destruct (w_comps _ !! t) as [st|]; [|done]. simpl. f_equal.
    assert (t ∈ storages_with (ungroup (set_comps cs1 w)) id ord <->
            t ∈ storages_with (ungroup (set_comps cs1 w)) id ord') as Hiff.
    { unfold storages_with. rewrite !elem_of_list_filter. by rewrite Hord, Hord'. }
    repeat case_decide; tauto. }
  destruct (em_remove_spec _ _ _ id (R_em _ _ H) Hal Hnf) as (e' & E4 & He).
  assert (forall o, for_each (storages_with (ungroup (set_comps cs1 w)) id o) (fun t => dyn_mut t (cs_remove id)) (ungroup (set_comps cs1 w))
      = (Ret tt, set_comps cs2 (ungroup (set_comps cs1 w))) ->
     (for_each (storages_with (set_groups gs1 (set_comps cs1 w)) id o) (fun t => dyn_mut t (cs_remove id)) >>! on_em (em_remove id))
        (set_groups gs1 (set_comps cs1 w)) = (Ret tt, set_em e' (set_groups gs1 (set_comps cs2 (set_comps cs1 w))))) as Hfin.
  { intros o Eo. assert (for_each (storages_with (set_groups gs1 (set_comps cs1 w)) id o) (fun t => dyn_mut t (cs_remove id)) (set_groups gs1 (set_comps cs1 w))
       = (Ret tt, set_groups gs1 (set_comps cs2 (set_comps cs1 w)))) as E.
    { change (storages_with (set_groups gs1 (set_comps cs1 w)) id o) with (storages_with (ungroup (set_comps cs1 w)) id o).
      change (set_groups gs1 (set_comps cs1 w)) with (set_groups gs1 (ungroup (set_comps cs1 w))). rewrite dyn_groups, Eo. done. }
    rewrite (bind_ret _ _ _ _ _ E). unfold on_em. cbn [w_em set_comps set_groups]. rewrite E4. done. }
  exists (set_em e' (set_groups gs1 (set_comps cs2 (set_comps cs1 w)))).
  split; [by apply Hfin|]. split; [by apply Hfin|].
  split; simpl; try apply H.
  - done.
  - apply G2.
  - constructor.
  - intros i j g h t _ Hg. by rewrite lookup_nil in Hg.
Qed.

End remove.

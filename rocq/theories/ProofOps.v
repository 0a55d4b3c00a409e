(** Every call except queries refines the specification. *)
From stdpp Require Import prelude list gmap.
From Verif Require Import Base Api ModelSparse ModelEntity ModelGroup ModelWorld
  Spec ProofSparse ProofEntity ProofGroup ProofWorld.

Section ops.
Context {V : Type}.
Notation world := (world V).
Notation storage := (storage V).
Implicit Types (w : world) (aw : aworld V) (cs : gmap nat storage) (ac : gmap nat (gmap nat V)).

Lemma alter_Some {A} (f : A -> A) t (m : gmap nat A) x : m !! t = Some x -> alter f t m = <[t := f x]> m.
Proof.
  intros H. apply map_eq. intros u. destruct (decide (t = u)) as [->|Hne].
  - by rewrite lookup_alter, H, lookup_insert.
  - by rewrite lookup_alter_ne, lookup_insert_ne.
Qed.
Lemma srel_ext cs ac sl sl' : (forall t, sl t = sl' t) -> srel cs ac sl -> srel cs ac sl'.
Proof. intros E H t. specialize (H t). destruct (cs !! t), (ac !! t); try done; by rewrite <- E. Qed.

Lemma R_new : R (@w_new V) a_init.
Proof.
  split; simpl.
  - apply em_rel_new.
  - intros t. by rewrite !lookup_empty.
  - constructor.
  - intros i j g h t _ Hi. done.
  - intros r. by rewrite !lookup_empty.
Qed.

Lemma R_GI w aw : R w aw -> GI (w_comps w) (w_groups w) (a_comps aw) (a_slots aw) (a_groups aw).
Proof. intros H. split; apply H. Qed.

(** ** Entities *)
Lemma exist_spec w aw id : R w aw -> 1 <= id -> exist id w = a_exist aw id.
Proof. intros H Hid. unfold exist, a_exist. apply em_has_spec; [apply H|done]. Qed.

Lemma R_set_em w aw e next free : R w aw -> em_rel e next free ->
  R (set_em e w) (AW next free (a_comps aw) (a_slots aw) (a_groups aw) (a_res aw)).
Proof. intros [? ? ? ? ?] He. by split. Qed.

Lemma create_entity_spec w aw : R w aw ->
  let id := match a_free aw with f :: _ => f | [] => S (a_next aw) end in
  exists w', create_entity w = (Ret id, w') /\ R w' (anext aw CreateEntity).
Proof.
  intros H id. destruct (em_allocate_spec _ _ _ (R_em _ _ H)) as (e' & E & He).
  unfold create_entity.
  assert (on_em em_allocate w = (Ret id, set_em e' w)) as E' by (unfold on_em; by rewrite E).
  rewrite (bind_ret _ _ _ _ _ E'). rewrite bind_get.
  assert (R (set_em e' w) (anext aw CreateEntity)) as HR.
  { simpl. destruct (a_free aw) as [|f fs] eqn:Ef; simpl in He; by apply R_set_em. }
  assert (exist id (set_em e' w) = Ret true) as Hx.
  { assert (1 <= id <= a_next (anext aw CreateEntity) /\ id ∉ a_free (anext aw CreateEntity)) as (Hid & Hn).
    { pose proof (er_nodup _ _ _ (R_em _ _ H)) as ND. unfold id. simpl.
      pose proof (fun x => er_elem _ _ _ x (R_em _ _ H)) as El.
      destruct (a_free aw) as [|f fs] eqn:Ef; simpl.
      - split; [lia|]. by apply not_elem_of_nil.
      - split; [apply El; right; left|]. apply NoDup_app in ND as (_ & _ & ND). apply NoDup_cons in ND as [ND _]. done. }
    rewrite (exist_spec _ _ id HR) by lia. unfold a_exist. rewrite decide_False by lia.
    by rewrite bool_decide_true by (by left). }
  rewrite Hx. rewrite bind_lift. unfold ret. eauto.
Qed.
Lemma create_entities_spec w aw n : R w aw ->
  exists w', create_entities n w = (Ret (S (a_next aw), S (a_next aw) + n), w') /\ R w' (anext aw (CreateEntities n)).
Proof.
  intros H. destruct (em_allocate_n_spec _ _ _ n (R_em _ _ H)) as (e' & E & He).
  unfold create_entities, on_em. rewrite E. eexists. split; [done|]. by apply R_set_em.
Qed.

(** ** Registration *)
Lemma register_spec w aw t : R w aw ->
  register t w = (if decide (registered aw t) then (Panic, w)
    else (Ret tt, set_comps (<[t := St t ss_new]> (w_comps w)) w)) /\
  R (register t w).2 (anext aw (Register t)).
Proof.
  intros H. unfold register. rewrite bind_get. rewrite (has_registered_spec w aw t (R_st _ _ H)).
  case_decide as C.
  - rewrite bind_assert_false by (by rewrite bool_decide_true). split; [done|]. simpl. by rewrite decide_True.
  - rewrite bind_assert_true by (by rewrite bool_decide_false). split; [done|]. simpl.
    rewrite decide_False by done.
    assert (w_comps w !! t = None) as Hn.
    { apply (srel_None _ _ _ t (R_st _ _ H)). by apply eq_None_not_Some. }
    split; simpl; try apply H.
    + intros u. destruct (decide (u = t)) as [->|Hne].
      * rewrite !lookup_insert. split; [done|]. simpl.
        pose proof (R_st _ _ H t) as Hs. rewrite Hn in Hs. destruct (a_comps aw !! t); [done|].
        rewrite Hs. apply rep_new.
      * rewrite !lookup_insert_ne by done. apply (R_st _ _ H).
    + eapply Forall2_impl; [apply H|]. intros g ag Hg. rewrite <- (agroup_eta ag).
      eapply gok_change; [done|done|]. intros u st _ Hu. exists st.
      rewrite lookup_insert_ne by congruence. done.
Qed.

(** ** Attach *)
Lemma storage_mut_spec {A} w aw t m (f : M (sset V) A) o s' :
  R w aw -> a_comps aw !! t = Some m ->
  (forall st, w_comps w !! t = Some st -> st_ty st = t -> f (st_set st) = (o, s')) ->
  storage_mut t f w = (o, set_comps (<[t := St t s']> (w_comps w)) w).
Proof.
  intros H Hm Hf. destruct (srel_Some _ _ _ _ _ (R_st _ _ H) Hm) as (st & Hst & Ty & _).
  unfold storage_mut. rewrite Hst, Ty, Nat.eqb_refl. by rewrite (Hf st Hst Ty).
Qed.

Lemma upd_fmap cs gs ags t (u : agroup -> gset nat) : Forall2 (gok cs) gs ags ->
  upd_at (groups_with t gs 0) u ags =
  (fun g => AG (ag_kind g) (ag_a g) (ag_b g) (if ag_types g t then u g else ag_mem g) (ag_fresh g)) <$> ags.
Proof.
  intros F. apply list_eq. intros j. unfold upd_at. rewrite list_lookup_fmap.
  destruct (ags !! j) as [ag|] eqn:E; [|by rewrite (imap_None _ _ _ E)].
  rewrite (imap_Some _ _ _ _ E). simpl. f_equal.
  pose proof (groups_with_elem _ _ _ t j ag F E) as El. case_decide as C.
  - apply El in C. by rewrite C.
  - destruct (ag_types ag t) eqn:Et; [tauto|]. by destruct ag.
Qed.

(** clearing freshness flags *)
Definition defresh (p : agroup -> bool) (g : agroup) : agroup :=
  AG (ag_kind g) (ag_a g) (ag_b g) (ag_mem g) (ag_fresh g && p g).
Lemma defresh_static p ags : Forall2 ag_static ags (defresh p <$> ags).
Proof. induction ags; constructor; done. Qed.

Lemma reordered_false ags t h i g : reordered ags t h = false -> ags !! i = Some g -> ag_types g t = true ->
  ag_owns g (ag_a h) = false /\ ag_owns g (ag_b h) = false.
Proof.
  intros Hr Hi Ht. unfold reordered in Hr.
  assert (ag_owns g (ag_a h) || ag_owns g (ag_b h) = false) as Hx.
  { destruct (ag_owns g (ag_a h) || ag_owns g (ag_b h)) eqn:E; [|done].
    assert (existsb (fun h0 => ag_types h0 t && (ag_owns h0 (ag_a h) || ag_owns h0 (ag_b h))) ags = true); [|congruence].
    apply existsb_exists. exists g. split.
    - apply elem_of_list_In. by eapply elem_of_list_lookup_2.
    - by rewrite Ht, E. }
  by apply orb_false_iff in Hx.
Qed.

(** appending to a storage keeps every group *)
Lemma gok_append cs g ag t st s' ac sl : srel cs ac sl -> gok cs g ag -> cs !! t = Some st ->
  (forall n, n <= length (entities (st_set st)) -> take n (entities s') = take n (entities (st_set st))) ->
  (forall e, e ∈ entities (st_set st) -> e ∈ entities s' /\ ss_get_index s' e = ss_get_index (st_set st) e) ->
  gok (<[t := St (st_ty st) s']> cs) g ag.
Proof.
  intros S H Ht Htake Hk. rewrite <- (agroup_eta ag). eapply gok_change; [done|done|].
  intros u su Hu Hsu. destruct (decide (u = t)) as [->|Hne].
  - assert (su = st) as -> by congruence. eexists. rewrite lookup_insert. split; [done|]. simpl.
    split_and!.
    + intros Ho. apply Htake. destruct H as [Hs _ (sa & sb & Ha & Hb & Hd)].
      destruct g as [d|d|d]; simpl in *; destruct Hs as (K & EA & EB); unfold ag_owns in Ho; rewrite K in Ho; [| |done].
      * destruct Hd as (L1 & L2 & _). apply orb_true_iff in Ho as [Ho|Ho]; apply Nat.eqb_eq in Ho; subst t; congruence.
      * destruct Hd as (L1 & _). apply Nat.eqb_eq in Ho; subst t; congruence.
    + intros e _ He. by apply Hk.
    + intros _ e He. apply Hk.
      destruct (gok_mem _ _ _ _ _ _ S H He) as (ma & mb & Hma & Hmb & I1 & I2).
      destruct (srel_Some_r _ _ _ _ _ S Ht) as (m & Hm & _ & Rt). apply (rep_elem _ _ _ _ Rt).
      unfold ag_types in Hu. apply orb_true_iff in Hu as [Hu|Hu]; apply Nat.eqb_eq in Hu; subst t; congruence.
  - exists su. by rewrite lookup_insert_ne.
Qed.

Lemma attach_spec w aw t id v : R w aw -> registered aw t ->
  exists w', entity_attach t id v w = (Ret tt, w') /\ R w' (a_attach t id v aw).
Proof.
  intros H [m Hm]. unfold entity_attach. rewrite bind_get.
  rewrite bind_assert_true.
  2:{ rewrite (has_registered_spec w aw t (R_st _ _ H)). apply bool_decide_true. by exists m. }
  destruct (srel_Some _ _ _ _ _ (R_st _ _ H) Hm) as (st & Hst & Ty & Rt).
  destruct (add_rep id v _ _ _ Rt) as (s' & Es & Rs' & Ps & Ps' & En).
  rewrite (bind_ret _ _ _ _ _ (storage_mut_spec w aw t m (ss_add id v) (Ret tt) s' H Hm
     ltac:(intros st0 Hst0 _; assert (st0 = st) as -> by congruence; exact Es))).
  rewrite bind_get. cbn [w_groups set_comps].
  set (w1 := set_comps (<[t:=St t s']> (w_comps w)) w).
  set (aw1 := a_set_slots t (S id) (a_put t id v aw)).
  set (ags1 := defresh (fun g => negb (reordered (a_groups aw) t g)) <$> a_groups aw).
  assert (srel (w_comps w1) (a_comps aw1) (a_slots aw1)) as S1.
  { simpl. unfold a_put. simpl. rewrite (alter_Some _ _ _ _ Hm). rewrite <- Ty at 2.
    eapply srel_ext; [|eapply srel_insert; [apply H|done|done]].
    intros u. simpl. case_decide; subst; done. }
  assert (forall g ag, gok (w_comps w) g ag -> gok (w_comps w1) g ag) as Hk.
  { intros g ag Hg. simpl. rewrite <- Ty at 2. eapply gok_append; [apply H|done|done| |].
    - intros n Hn. rewrite En. destruct (ss_exist _ _); [done|]. by rewrite take_app_le.
    - intros e He. split.
      + rewrite En. destruct (ss_exist _ _); [done|]. apply elem_of_app. by left.
      + destruct (decide (e = id)) as [->|]; [|by apply Ps]. apply Ps'. by apply (rep_elem _ _ _ _ Rt). }
  assert (GI (w_comps w1) (w_groups w1) (a_comps aw1) (a_slots aw1) ags1) as G1.
  { split; [done| |].
    - apply Forall2_fmap_r. eapply Forall2_impl; [apply H|]. intros g ag Hg. apply gok_weaken; [by apply Hk|].
      intros Hx. by apply andb_true_iff in Hx as [? _].
    - eapply safe_static; [apply defresh_static|apply H]. }
  assert (forall j h, ags1 !! j = Some h -> exists h0, a_groups aw !! j = Some h0 /\
     h = defresh (fun g => negb (reordered (a_groups aw) t g)) h0) as Hags1.
  { intros j h Hj. unfold ags1 in Hj. rewrite list_lookup_fmap in Hj.
    destruct (a_groups aw !! j) as [h0|]; [|done]. injection Hj as <-. eauto. }
  destruct (for_each_run (fun i => run_group_at i (full_add id) (part_add id) (non_add id))
     (fun ag => if both_has (a_comps aw1) (ag_a ag) (ag_b ag) id then {[id]} ∪ ag_mem ag else ag_mem ag)
     (a_comps aw1) (a_slots aw1) (groups_with t (w_groups w) 0) w1 ags1 G1) as (cs' & gs' & E & G2).
  - apply groups_with_nodup.
  - intros i Hi. eapply groups_with_lt; [apply G1|exact Hi].
  - intros i j g h Hi Hij Hgi Hhj Hx.
    apply (groups_with_elem _ _ _ t i g (gi_gok _ _ _ _ _ G1) Hgi) in Hi.
    destruct (Hags1 _ _ Hgi) as (g0 & Hg0 & ->). destruct (Hags1 _ _ Hhj) as (h0 & Hh0 & ->).
    simpl in Hx. apply andb_true_iff in Hx as [_ Hx]. apply negb_true_iff in Hx.
    apply (reordered_false _ _ _ _ _ Hx Hg0 Hi).
  - intros i w2 g ag _ S2 Hg Hok. exact (run_add w2 _ _ i g ag id S2 Hg Hok).
  - rewrite E. eexists. split; [done|].
    assert (upd_at (groups_with t (w_groups w) 0)
         (λ ag, if both_has (a_comps aw1) (ag_a ag) (ag_b ag) id then {[id]} ∪ ag_mem ag else ag_mem ag) ags1
        = g_attach (a_groups aw) aw1 t id <$> a_groups aw) as Heq.
    { rewrite (upd_fmap (w_comps w1)) by apply G1. unfold ags1. rewrite <- list_fmap_compose.
      apply list_fmap_ext. intros _ g _. unfold g_attach, defresh; simpl. f_equal.
      unfold both_has, ag_types; simpl. unfold has, comp.
      destruct ((ag_a g =? t) || (ag_b g =? t)); done. }
    split; try apply H.
    + apply G2.
    + change (a_groups (a_attach t id v aw)) with (g_attach (a_groups aw) aw1 t id <$> a_groups aw).
      rewrite <- Heq. apply G2.
    + change (a_groups (a_attach t id v aw)) with (g_attach (a_groups aw) aw1 t id <$> a_groups aw).
      rewrite <- Heq. apply G2.
Qed.

(** ** Detach *)
Lemma storage_eta (st : storage) : St (st_ty st) (st_set st) = st.
Proof. by destruct st. Qed.

Lemma run_remove_absent w ac sl i g ag id : srel (w_comps w) ac sl -> w_groups w !! i = Some g ->
  gok (w_comps w) g ag -> id ∉ ag_mem ag ->
  run_group_at i (full_remove id) (part_remove id) (non_remove id) w = (Ret tt, w).
Proof.
  intros S Hi [Hs Ne (sa & sb & Ha & Hb & Hd)] Hn.
  destruct (srel_Some_r _ _ _ _ _ S Ha) as (ma & Hma & Tya & Ra).
  destruct (srel_Some_r _ _ _ _ _ S Hb) as (mb & Hmb & Tyb & Rb).
  pose proof (rep_wf _ _ _ Ra) as Wa. pose proof (rep_wf _ _ _ Rb) as Wb.
  assert (set_groups (<[i := g]> (w_groups w)) (set_comps (w_comps w) w) = w) as Hid.
  { rewrite list_insert_id by done. apply set_groups_comps_id. }
  destruct g as [d|d|d]; simpl in Hs, Hd; destruct Hs as (K & EA & EB); rewrite ?EA, ?EB in *.
  - destruct Ne as [?|Ne]; [congruence|].
    assert (full_remove id (GC d (st_set sa) (st_set sb)) = (Ret tt, GC d (st_set sa) (st_set sb))) as E.
    { unfold full_remove. rewrite bind_get. cbn [gc_a gc_b gc_d].
      rewrite (full_in_group_spec d _ _ _ id Wa Wb Hd). rewrite bind_lift. by rewrite bool_decide_false. }
    rewrite (run_group_full w i d sa sb _ _ _ _ Hi Ha Hb Ne E). cbn [gc_a gc_b gc_d]. rewrite !storage_eta.
    rewrite (insert_id (w_comps w) (fd_a d)) by done. rewrite insert_id by done. by rewrite Hid.
  - destruct Ne as [?|Ne]; [congruence|].
    assert (part_remove id (GC d (st_set sa) (st_set sb)) = (Ret tt, GC d (st_set sa) (st_set sb))) as E.
    { unfold part_remove. rewrite bind_get. cbn [gc_a gc_b gc_d].
      rewrite (part_in_group_spec d _ _ _ id Wa Wb Hd). rewrite bind_lift. by rewrite bool_decide_false. }
    rewrite (run_group_part w i d sa sb _ _ _ _ Hi Ha Hb Ne E). cbn [gc_a gc_b gc_d]. rewrite !storage_eta.
    rewrite insert_id by done. by rewrite Hid.
  - assert (non_remove id (GC d (st_set sa) (st_set sb)) = (Ret tt, GC d (st_set sa) (st_set sb))) as E.
    { unfold non_remove. rewrite bind_get. cbn [gc_a gc_b gc_d].
      rewrite (non_in_group_spec d _ _ _ _ id Wa Wb Hd). rewrite bind_lift. by rewrite bool_decide_false. }
    rewrite (run_group_non w i d sa sb _ _ _ _ Hi Ha Hb E). cbn [gc_a gc_b gc_d]. by rewrite Hid.
Qed.

Lemma for_each_id (f : nat -> M world unit) L w : (forall i, i ∈ L -> f i w = (Ret tt, w)) ->
  for_each L f w = (Ret tt, w).
Proof.
  intros H. induction L as [|i L IH]; [done|]. simpl.
  rewrite (bind_ret _ _ _ _ _ (H i (elem_of_list_here _ _))). apply IH. intros j Hj. apply H. by right.
Qed.

Lemma member_has w aw g ag t id : R w aw -> gok (w_comps w) g ag -> ag_types ag t = true ->
  id ∈ ag_mem ag -> has aw t id.
Proof.
  intros H Hg Ht Hid. destruct (gok_mem _ _ _ _ _ _ (R_st _ _ H) Hg Hid) as (ma & mb & Hma & Hmb & I1 & I2).
  unfold has, comp. unfold ag_types in Ht.
  apply orb_true_iff in Ht as [Ht|Ht]; apply Nat.eqb_eq in Ht; subst t.
  - by rewrite Hma.
  - by rewrite Hmb.
Qed.

Lemma detach_absent_spec w aw t id : R w aw -> registered aw t -> comp aw t id = None ->
  entity_detach t id w = (if decide (id = a_slots aw t) then Panic else Ret None, w).
Proof.
  intros H [m Hm] Hc. unfold entity_detach. rewrite bind_get. rewrite bind_assert_true.
  2:{ rewrite (has_registered_spec w aw t (R_st _ _ H)). apply bool_decide_true. by exists m. }
  rewrite (bind_ret _ _ w tt w).
  2:{ apply for_each_id. intros i Hi.
      pose proof (groups_with_lt _ _ _ _ _ (R_gr _ _ H) Hi) as Hlt.
      destruct (lookup_lt_is_Some_2 _ _ Hlt) as [ag Hag].
      destruct (Forall2_lookup_r _ _ _ _ _ (R_gr _ _ H) Hag) as (g & Hg & Hok).
      apply (groups_with_elem _ _ _ t i ag (R_gr _ _ H) Hag) in Hi.
      eapply run_remove_absent; [apply H|done|done|]. intros Hmem.
      pose proof (member_has w aw g ag t id H Hok Hi Hmem) as Hh. unfold has in Hh. rewrite Hc in Hh. by destruct Hh. }
  destruct (srel_Some _ _ _ _ _ (R_st _ _ H) Hm) as (st & Hst & Ty & Rt).
  unfold comp in Hc. rewrite Hm in Hc. simpl in Hc.
  unfold storage_mut. rewrite Hst, Ty, Nat.eqb_refl. rewrite (remove_rep_None _ _ _ _ Rt Hc).
  assert (St t (st_set st) = st) as Est by (destruct st; simpl in *; congruence).
  case_decide; rewrite Est, (insert_id (w_comps w) t st Hst); by destruct w.
Qed.

(** removing a non-member from a storage keeps the group *)
Lemma gok_remove_nonmember cs g ag t st s' ac sl id m n : srel cs ac sl -> gok cs g ag -> cs !! t = Some st ->
  ss_rep (st_set st) m n -> ss_rep s' (delete id m) n ->
  (exists i el, ss_get_index (st_set st) id = Some i /\
     entities s' = take (length (entities (st_set st)) - 1) (<[i := el]> (entities (st_set st)))) ->
  id ∉ ag_mem ag -> (ag_fresh ag = true -> ag_types ag t = false) ->
  gok (<[t := St (st_ty st) s']> cs) g ag.
Proof.
  intros S H Ht Rt Rt' (i & el & Hi & En) Hn Hf. rewrite <- (agroup_eta ag). eapply gok_change; [done|done|].
  intros u su Hu Hsu. destruct (decide (u = t)) as [->|Hne].
  - assert (su = st) as -> by congruence. eexists. rewrite lookup_insert. split; [done|]. simpl.
    split_and!.
    + intros Ho. rewrite En. eapply take_remove_ge; [apply Rt|done|].
      by eapply gok_nonmem_pos.
    + intros e He. rewrite (rep_elem _ _ _ _ Rt), (rep_elem _ _ _ _ Rt').
      rewrite lookup_delete_ne; [done|]. by intros ->.
    + intros Hx. rewrite Hf in Hu by done. done.
  - exists su. by rewrite lookup_insert_ne.
Qed.

Lemma detach_present_spec w aw t id v : R w aw -> comp aw t id = Some v ->
  exists w', entity_detach t id w = (Ret (Some v), w') /\ R w' (a_detach t id aw).
Proof.
  intros H Hc. assert (exists m, a_comps aw !! t = Some m /\ m !! id = Some v) as (m & Hm & Hmv).
  { unfold comp in Hc. destruct (a_comps aw !! t) as [m|]; [|done]. eauto. }
  unfold entity_detach. rewrite bind_get. rewrite bind_assert_true.
  2:{ rewrite (has_registered_spec w aw t (R_st _ _ H)). apply bool_decide_true. by exists m. }
  set (p := fun g => negb (reordered (a_groups aw) t g) && negb (ag_types g t)).
  set (ags1 := defresh p <$> a_groups aw).
  assert (GI (w_comps w) (w_groups w) (a_comps aw) (a_slots aw) ags1) as G1.
  { split; [apply H| |].
    - apply Forall2_fmap_r. eapply Forall2_impl; [apply H|]. intros g ag Hg. apply gok_weaken; [done|].
      intros Hx. by apply andb_true_iff in Hx as [? _].
    - eapply safe_static; [apply defresh_static|apply H]. }
  assert (forall j h, ags1 !! j = Some h -> exists h0, a_groups aw !! j = Some h0 /\ h = defresh p h0) as Hags1.
  { intros j h Hj. unfold ags1 in Hj. rewrite list_lookup_fmap in Hj.
    destruct (a_groups aw !! j) as [h0|]; [|done]. injection Hj as <-. eauto. }
  destruct (for_each_run (fun i => run_group_at i (full_remove id) (part_remove id) (non_remove id))
     (fun ag => ag_mem ag ∖ {[id]})
     (a_comps aw) (a_slots aw) (groups_with t (w_groups w) 0) w ags1 G1) as (cs' & gs' & E & G2).
  - apply groups_with_nodup.
  - intros i Hi. eapply groups_with_lt; [apply G1|exact Hi].
  - intros i j g h Hi Hij Hgi Hhj Hx.
    apply (groups_with_elem _ _ _ t i g (gi_gok _ _ _ _ _ G1) Hgi) in Hi.
    destruct (Hags1 _ _ Hgi) as (g0 & Hg0 & ->). destruct (Hags1 _ _ Hhj) as (h0 & Hh0 & ->).
    simpl in Hx. unfold p in Hx. apply andb_true_iff in Hx as [_ Hx].
    apply andb_true_iff in Hx as [Hx _]. apply negb_true_iff in Hx.
    apply (reordered_false _ _ _ _ _ Hx Hg0 Hi).
  - intros i w2 g ag _ S2 Hg Hok. exact (run_remove w2 _ _ i g ag id S2 Hg Hok).
  - rewrite (bind_ret _ _ _ _ _ E).
    assert (upd_at (groups_with t (w_groups w) 0) (λ ag, ag_mem ag ∖ {[id]}) ags1
        = g_detach (a_groups aw) t id <$> a_groups aw) as Heq.
    { rewrite (upd_fmap (w_comps w)) by apply G1. unfold ags1. rewrite <- list_fmap_compose.
      apply list_fmap_ext. intros _ g _. unfold g_detach, defresh, p; simpl. f_equal. by rewrite andb_assoc. }
    rewrite Heq in G2.
    destruct (srel_Some _ _ _ _ _ (gi_srel _ _ _ _ _ G2) Hm) as (st & Hst & Ty & Rt).
    destruct (remove_rep id _ _ _ v Rt Hmv) as (s' & i & el & Es & Rs' & Hi & Hel & En).
    unfold storage_mut. cbn [w_comps set_groups set_comps]. rewrite Hst, Ty, Nat.eqb_refl, Es.
    eexists. split; [done|]. rewrite <- Ty at 2. split; try apply H.
    + simpl. rewrite (alter_Some _ _ _ _ Hm).
      eapply srel_ext; [|eapply srel_insert; [apply G2|done|done]].
      intros u. simpl. case_decide; subst; done.
    + simpl. eapply Forall2_impl; [apply Forall2_same_length_lookup; split|].
      * eapply Forall2_length. apply G2.
      * intros j x y Hx Hy. exact (conj (Forall2_lookup_lr _ _ _ _ _ _ (gi_gok _ _ _ _ _ G2) Hx Hy)
          (elem_of_list_lookup_2 _ _ _ Hy)).
      * intros g ag [Hg Hin]. apply elem_of_list_fmap in Hin as (ag0 & -> & Hin).
        destruct (decide (ag_types ag0 t = true)) as [Ht|Ht].
        -- eapply (gok_remove_nonmember _ _ _ _ _ _ _ _ id); [apply G2|done|done|exact Rt|exact Rs'|eauto| |].
           ++ simpl. rewrite Ht. set_solver.
           ++ simpl. rewrite Ht. rewrite andb_false_r. done.
        -- rewrite <- (agroup_eta (g_detach _ _ _ _)). eapply gok_change; [done|done|].
           intros u su Hu Hsu. exists su. rewrite lookup_insert_ne; [done|].
           intros ->. apply Ht. exact Hu.
    + apply G2.
Qed.

End ops.

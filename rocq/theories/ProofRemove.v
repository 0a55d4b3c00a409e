(** remove_entity. *)
From stdpp Require Import prelude list gmap sorting.
From Verif Require Import Base Api ModelSparse ModelEntity ModelGroup ModelWorld ModelStep
  Spec ProofSparse ProofEntity ProofGroup ProofWorld ProofOps.

Section remove.
Context {V : Type}.
Notation world := (world V).
Notation storage := (storage V).
Implicit Types (w : world) (aw : aworld V) (cs : gmap nat storage) (ac : gmap nat (gmap nat V)).

(** ** which groups contain the entity *)
Fixpoint mem_pos (id : nat) (ags : list agroup) (k : nat) : list nat :=
  match ags with
  | [] => []
  | g :: ags' => if decide (id ∈ ag_mem g) then k :: mem_pos id ags' (S k) else mem_pos id ags' (S k)
  end.
Lemma mem_pos_elem id ags k i : i ∈ mem_pos id ags k <->
  exists j g, i = k + j /\ ags !! j = Some g /\ id ∈ ag_mem g.
Proof.
  revert k. induction ags as [|g ags IH]; intros k; simpl.
  - rewrite elem_of_nil. split; [done|]. intros (j & g & _ & H & _). done.
  - assert (i ∈ mem_pos id ags (S k) <-> exists j g0, i = k + S j /\ ags !! j = Some g0 /\ id ∈ ag_mem g0) as IH'.
    { rewrite IH. split; intros (j & g0 & -> & H); exists j, g0; (split; [lia|done]). }
    case_decide as C.
    + rewrite elem_of_cons, IH'. split.
      * intros [->|(j & g0 & -> & H)]; [exists 0, g; split; [lia|done]|exists (S j), g0; done].
      * intros ([|j] & g0 & -> & H1 & H2); [left; lia|right]. eauto.
    + rewrite IH'. split.
      * intros (j & g0 & -> & H). exists (S j), g0; done.
      * intros ([|j] & g0 & -> & H1 & H2); [|eauto]. injection H1 as <-. done.
Qed.
Lemma mem_pos_sorted id ags k : StronglySorted lt (mem_pos id ags k).
Proof.
  revert k. induction ags as [|g ags IH]; intros k; simpl; [constructor|].
  case_decide; [|done]. constructor; [done|]. apply Forall_forall. intros x.
  rewrite mem_pos_elem. intros (j & g0 & -> & _). lia.
Qed.

Lemma g_in_group_spec cs ac sl g ag sa sb id : srel cs ac sl -> gok cs g ag ->
  cs !! ag_a ag = Some sa -> cs !! ag_b ag = Some sb ->
  g_in_group g (st_set sa) (st_set sb) id = Ret (bool_decide (id ∈ ag_mem ag)).
Proof.
  intros S [Hs _ (sa' & sb' & Ha & Hb & Hd)] Ha' Hb'.
  assert (sa' = sa) as -> by congruence. assert (sb' = sb) as -> by congruence.
  destruct (srel_Some_r _ _ _ _ _ S Ha) as (ma & _ & _ & Ra).
  destruct (srel_Some_r _ _ _ _ _ S Hb) as (mb & _ & _ & Rb).
  pose proof (rep_wf _ _ _ Ra). pose proof (rep_wf _ _ _ Rb).
  destruct g as [d|d|d]; simpl in *.
  - by apply full_in_group_spec.
  - by apply part_in_group_spec.
  - by eapply non_in_group_spec.
Qed.

Lemma collect_spec w ac sl id gs ags k : srel (w_comps w) ac sl -> Forall2 (gok (w_comps w)) gs ags ->
  collect_in_group w id gs k = Ret (mem_pos id ags k).
Proof.
  intros S F. revert k. induction F as [|g ag gs ags Hg F IH]; intros k; [done|]. simpl.
  rewrite (gstat_types _ _ (gok_stat _ _ _ Hg)).
  destruct (gok_dyn _ _ _ Hg) as (sa & sb & Ha & Hb & _). rewrite Ha, Hb.
  rewrite (g_in_group_spec _ _ _ _ _ _ _ id S Hg Ha Hb). rewrite IH.
  case_bool_decide; case_decide; done.
Qed.

(** ** one group: take the entity out and remove it from the owned storages *)
Definition del_owned (ag : agroup) (id : nat) ac : gmap nat (gmap nat V) :=
  map_imap (fun t m => Some (if ag_owns ag t then delete id m else m)) ac.
Lemma del_owned_lookup ag id ac t : del_owned ag id ac !! t =
  (if ag_owns ag t then delete id <$> ac !! t else ac !! t).
Proof. unfold del_owned. rewrite map_lookup_imap. destruct (ac !! t); simpl; by destruct (ag_owns ag t). Qed.

Lemma cs_remove_rep id (s : sset V) m n v : ss_rep s m n -> m !! id = Some v ->
  exists s' i el, cs_remove id s = (Ret tt, s') /\ ss_rep s' (delete id m) n /\
    ss_get_index s id = Some i /\ last (entities s) = Some el /\
    entities s' = take (length (entities s) - 1) (<[i := el]> (entities s)).
Proof.
  intros H Hv. destruct (remove_rep _ _ _ _ _ H Hv) as (s' & i & el & E & Q).
  exists s', i, el. split; [|done]. unfold cs_remove. by rewrite (bind_ret _ _ _ _ _ E).
Qed.

Lemma full_ok_nonmem_pos len (a b : sset V) mem id i : ss_wf a -> full_ok len a b mem -> id ∉ mem ->
  ss_get_index a id = Some i -> len <= i.
Proof.
  intros W (L1 & L2 & T & ->) Hn Hi. rewrite elem_of_list_to_set, (elem_take_pos _ _ _ _ W Hi L1) in Hn. lia.
Qed.
Lemma full_ok_nonmem_pos_b len (a b : sset V) mem id i : ss_wf b -> full_ok len a b mem -> id ∉ mem ->
  ss_get_index b id = Some i -> len <= i.
Proof.
  intros W (L1 & L2 & T & ->) Hn Hi. rewrite T, elem_of_list_to_set, (elem_take_pos _ _ _ _ W Hi L2) in Hn. lia.
Qed.

Record del_post cs ac sl (ag : agroup) id cs' (g' : group) : Prop := {
  dp_srel : srel cs' (del_owned ag id ac) sl;
  dp_frame : forall t, ag_owns ag t = false -> cs' !! t = cs !! t;
  dp_gok : gok cs' g' (AG (ag_kind ag) (ag_a ag) (ag_b ag) (ag_mem ag ∖ {[id]}) (ag_fresh ag))
}.

Lemma run_delete w ac sl i g ag id : srel (w_comps w) ac sl -> w_groups w !! i = Some g ->
  gok (w_comps w) g ag -> id ∈ ag_mem ag ->
  exists cs' g', run_group_at i
      (full_remove id >>! on_a (cs_remove id) >>! on_b (cs_remove id))
      (part_remove id >>! on_a (cs_remove id)) (non_remove id) w =
      (Ret tt, set_groups (<[i := g']> (w_groups w)) (set_comps cs' w)) /\
    del_post (w_comps w) ac sl ag id cs' g'.
Proof.
  intros S Hi Hok Hid.
  destruct (gok_mem _ _ _ _ _ _ S Hok Hid) as (ma & mb & Hma & Hmb & [va Hva] & [vb Hvb]).
  destruct Hok as [St Ne (sa & sb & Ha & Hb & Hd)].
  destruct (srel_Some_r _ _ _ _ _ S Ha) as (ma' & Hma' & Tya & Ra).
  destruct (srel_Some_r _ _ _ _ _ S Hb) as (mb' & Hmb' & Tyb & Rb).
  assert (ma' = ma) as -> by congruence. assert (mb' = mb) as -> by congruence. clear Hma' Hmb'.
  destruct g as [d|d|d]; simpl in St, Hd; destruct St as (K & EA & EB); rewrite ?EA, ?EB in *.
  - destruct Ne as [?|Ne]; [congruence|].
    destruct (full_remove_spec d _ _ _ id _ _ _ _ Ra Rb Hd) as (a' & b' & n' & E & Ra' & Rb' & Hok).
    destruct (cs_remove_rep id _ _ _ va Ra' Hva) as (a2 & ia & ela & Ea & Ra2 & Pa & La & Na).
    destruct (cs_remove_rep id _ _ _ vb Rb' Hvb) as (b2 & ib & elb & Eb & Rb2 & Pb & Lb & Nb).
    assert ((full_remove id >>! on_a (cs_remove id) >>! on_b (cs_remove id)) (GC d (st_set sa) (st_set sb))
       = (Ret tt, GC (FD n' (fd_a d) (fd_b d)) a2 b2)) as E2.
    { rewrite (bind_ret _ _ _ _ _ E).
      assert (on_a (cs_remove id) (GC (FD n' (fd_a d) (fd_b d)) a' b') = (Ret tt, GC (FD n' (fd_a d) (fd_b d)) a2 b')) as E3.
      { unfold on_a. cbn [gc_a gc_b gc_d]. by rewrite Ea. }
      rewrite (bind_ret _ _ _ _ _ E3). unfold on_b. cbn [gc_a gc_b gc_d]. by rewrite Eb. }
    rewrite (run_group_full w i d sa sb _ _ _ _ Hi Ha Hb Ne E2). eexists _, _. split; [done|].
    cbn [gc_a gc_b gc_d].
    assert (id ∉ ag_mem ag ∖ {[id]}) as Hnm by set_solver.
    split.
    + intros t. rewrite del_owned_lookup. unfold ag_owns. rewrite K, EA, EB.
      destruct (decide (t = fd_b d)) as [->|Hb1].
      * rewrite lookup_insert, Nat.eqb_refl, orb_true_r, Hmb. simpl. done.
      * rewrite lookup_insert_ne by done. destruct (decide (t = fd_a d)) as [->|Ha1].
        -- rewrite lookup_insert, Nat.eqb_refl, Hma. simpl. done.
        -- rewrite lookup_insert_ne by done. destruct (Nat.eqb_spec (fd_a d) t), (Nat.eqb_spec (fd_b d) t); try congruence.
           simpl. apply S.
    + intros t Ho. unfold ag_owns in Ho. rewrite K, EA, EB in Ho. apply orb_false_iff in Ho as [H1 H2].
      apply Nat.eqb_neq in H1, H2. by rewrite !lookup_insert_ne.
    + split; simpl; [done|rewrite EA, EB; by right|]. eexists _, _. rewrite EA, EB.
      rewrite lookup_insert_ne by done. rewrite !lookup_insert. split_and!; [done|done|]. simpl.
      eapply full_ok_keeps; [exact Hok| |].
      * rewrite Na. eapply take_remove_ge; [apply Ra'|done|].
        exact (full_ok_nonmem_pos _ _ _ _ _ _ (rep_wf _ _ _ Ra') Hok Hnm Pa).
      * rewrite Nb. eapply take_remove_ge; [apply Rb'|done|].
        exact (full_ok_nonmem_pos_b _ _ _ _ _ _ (rep_wf _ _ _ Rb') Hok Hnm Pb).
  - destruct Ne as [?|Ne]; [congruence|].
    destruct (part_remove_spec d _ _ _ id _ _ _ _ Ra Rb Hd) as (a' & n' & E & Ra' & Hok).
    destruct (cs_remove_rep id _ _ _ va Ra' Hva) as (a2 & ia & ela & Ea & Ra2 & Pa & La & Na).
    assert ((part_remove id >>! on_a (cs_remove id)) (GC d (st_set sa) (st_set sb))
       = (Ret tt, GC (PD n' (pd_a d) (pd_b d)) a2 (st_set sb))) as E2.
    { rewrite (bind_ret _ _ _ _ _ E). unfold on_a. cbn [gc_a gc_b gc_d]. by rewrite Ea. }
    rewrite (run_group_part w i d sa sb _ _ _ _ Hi Ha Hb Ne E2). eexists _, _. split; [done|].
    cbn [gc_a gc_b gc_d].
    assert (id ∉ ag_mem ag ∖ {[id]}) as Hnm by set_solver.
    split.
    + intros t. rewrite del_owned_lookup. unfold ag_owns. rewrite K, EA.
      destruct (decide (t = pd_a d)) as [->|Ha1].
      * rewrite lookup_insert, Nat.eqb_refl, Hma. simpl. done.
      * rewrite lookup_insert_ne by done. destruct (Nat.eqb_spec (pd_a d) t); try congruence. apply S.
    + intros t Ho. unfold ag_owns in Ho. rewrite K, EA in Ho.
      apply Nat.eqb_neq in Ho. by rewrite !lookup_insert_ne.
    + split; simpl; [done|rewrite EA, EB; by right|]. eexists _, sb. rewrite EA, EB.
      rewrite lookup_insert. rewrite lookup_insert_ne by done. split_and!; [done|done|]. simpl.
      eapply part_ok_keeps; [exact Hok| |done].
      rewrite Na. eapply take_remove_ge; [apply Ra'|done|].
      destruct Hok as (L1 & Hm & _). pose proof (elem_take_pos _ _ _ _ (rep_wf _ _ _ Ra') Pa L1) as El.
      destruct (decide (ia < n')) as [Hlt|]; [|lia]. destruct Hnm. rewrite Hm. apply elem_of_list_to_set. by apply El.
  - destruct (non_remove_spec d _ _ _ _ id _ _ _ _ Ra Rb Hd) as (g' & E & Hok).
    rewrite (run_group_non w i d sa sb _ _ _ _ Hi Ha Hb E). eexists _, _. split; [done|].
    cbn [gc_a gc_b gc_d]. split; [|done|].
    + assert (del_owned ag id ac = ac) as ->; [|done].
      apply map_eq. intros t. rewrite del_owned_lookup. unfold ag_owns. by rewrite K.
    + split; simpl; [done|by left|]. exists sa, sb. rewrite EA, EB. done.
Qed.

(** ** the loop over the groups *)
Definition hasc ac (t id : nat) : Prop := is_Some (ac !! t ≫= (.!! id)).
Definition pdel id ac ac' : Prop := forall t, ac' !! t = ac !! t \/ ac' !! t = delete id <$> ac !! t.
Lemma pdel_refl id ac : pdel id ac ac.
Proof. intros t. by left. Qed.
Lemma pdel_owned id ac ac' ag : pdel id ac ac' -> pdel id ac (del_owned ag id ac').
Proof.
  intros H t. rewrite del_owned_lookup. destruct (ag_owns ag t); [|apply H]. right.
  destruct (H t) as [->| ->]; [done|]. destruct (ac !! t); simpl; [|done]. f_equal. apply delete_idemp.
Qed.

Definition fresh_ok ac id (ags : list agroup) : Prop :=
  forall j h, ags !! j = Some h -> ag_fresh h = true -> ~ hasc ac (ag_a h) id /\ ~ hasc ac (ag_b h) id.

Lemma remove_groups ac0 sl id L w ac ags :
  GI (w_comps w) (w_groups w) ac sl ags -> apart ags id -> pdel id ac0 ac -> fresh_ok ac0 id ags ->
  StronglySorted lt L -> (forall i, i ∈ L <-> exists ag, ags !! i = Some ag /\ id ∈ ag_mem ag) ->
  exists cs' gs' ac', for_each L (fun i => run_group_at i
      (full_remove id >>! on_a (cs_remove id) >>! on_b (cs_remove id))
      (part_remove id >>! on_a (cs_remove id)) (non_remove id)) w
     = (Ret tt, set_groups gs' (set_comps cs' w)) /\
    pdel id ac0 ac' /\
    GI cs' gs' ac' sl
      ((fun g => AG (ag_kind g) (ag_a g) (ag_b g) (ag_mem g ∖ {[id]}) (ag_fresh g)) <$> ags).
Proof.
  intros H Ap P Fr So. revert w ac ags H Ap P Fr. induction So as [|i L So IH Hlt]; intros w ac ags H Ap P Fr HL.
  - exists (w_comps w), (w_groups w), ac. simpl. rewrite set_groups_comps_id. split; [done|]. split; [done|].
    assert ((fun g => AG (ag_kind g) (ag_a g) (ag_b g) (ag_mem g ∖ {[id]}) (ag_fresh g)) <$> ags = ags) as ->; [|done].
    transitivity ((fun g => g) <$> ags).
    + apply list_fmap_ext. intros j g Hj. destruct g as [k a b mem fr]. simpl. f_equal.
      assert (id ∉ mem); [|set_solver]. intros Hin. assert (j ∈ @nil nat) as Hx by (apply HL; eauto).
      by apply elem_of_nil in Hx.
    + apply list_fmap_id.
  - destruct (proj1 (HL i) (elem_of_list_here _ _)) as (ag & Hi & Hid).
    destruct (Forall2_lookup_r _ _ _ _ _ (gi_gok _ _ _ _ _ H) Hi) as (g & Hg & Hok).
    destruct (run_delete w ac sl i g ag id (gi_srel _ _ _ _ _ H) Hg Hok Hid) as (cs1 & g1 & E1 & D).
    cbn [for_each]. rewrite (bind_ret _ _ _ _ _ E1).
    set (ag1 := AG (ag_kind ag) (ag_a ag) (ag_b ag) (ag_mem ag ∖ {[id]}) (ag_fresh ag)).
    set (ags1 := <[i := ag1]> ags).
    assert (Forall2 ag_static ags ags1) as Hst by (by apply static_upd).
    pose proof (lookup_lt_Some _ _ _ Hi) as Hil.
    assert (hasc ac0 (ag_a ag) id /\ hasc ac0 (ag_b ag) id) as [Hca Hcb].
    { destruct (gok_mem _ _ _ _ _ _ (gi_srel _ _ _ _ _ H) Hok Hid) as (ma & mb & Hma & Hmb & I1 & I2).
      assert (forall t m, ac !! t = Some m -> is_Some (m !! id) -> hasc ac0 t id) as Hx.
      { intros t m Hm Hs. unfold hasc. destruct (P t) as [Pt|Pt]; rewrite Hm in Pt.
        - rewrite <- Pt. done.
        - destruct (ac0 !! t) as [m0|]; [|done]. simpl in Pt. injection Pt as ->.
          rewrite lookup_delete in Hs. by destruct Hs. }
      split; eauto. }
    assert (forall t, ag_owns ag t = true -> hasc ac0 t id) as Hown.
    { intros t Ho. apply owns_types in Ho. unfold ag_types in Ho.
      apply orb_true_iff in Ho as [Ho|Ho]; apply Nat.eqb_eq in Ho; by subst t. }
    assert (GI cs1 (<[i := g1]> (w_groups w)) (del_owned ag id ac) sl ags1) as H1.
    { split.
      - apply D.
      - apply Forall2_same_length_lookup. split.
        { unfold ags1. rewrite !insert_length. eapply Forall2_length. apply H. }
        intros j x y Hx Hy. destruct (decide (i = j)) as [->|Hne].
        + unfold ags1 in Hy. rewrite list_lookup_insert in Hy by done. injection Hy as <-.
          rewrite list_lookup_insert in Hx by (rewrite (Forall2_length _ _ _ (gi_gok _ _ _ _ _ H)); done).
          injection Hx as <-. apply D.
        + unfold ags1 in Hy. rewrite list_lookup_insert_ne in Hx by done. rewrite list_lookup_insert_ne in Hy by done.
          pose proof (Forall2_lookup_lr _ _ _ _ _ _ (gi_gok _ _ _ _ _ H) Hx Hy) as Hoky.
          rewrite <- (agroup_eta y). eapply gok_change; [done|done|].
          intros t st Ht Hst'. destruct (ag_owns ag t) eqn:Ho.
          2:{ exists st. rewrite (dp_frame _ _ _ _ _ _ _ D) by done. done. }
          assert (id ∉ ag_mem y) as Hny.
          { intros Hin. assert (j ∈ i :: L) as Hj by (apply HL; eauto).
            apply elem_of_cons in Hj as [->|Hj]; [done|].
            assert (i < j) as Hij by (rewrite Forall_forall in Hlt; by apply Hlt).
            pose proof (Ap i j ag y t Hij Hi Hy Hid Hin Ho). congruence. }
          destruct (srel_Some_r _ _ _ _ _ (gi_srel _ _ _ _ _ H) Hst') as (m & Hm & _ & Rt).
          destruct (srel_Some _ _ _ t (delete id m) (dp_srel _ _ _ _ _ _ _ D)) as (st' & Hst2 & _ & Rt').
          { rewrite del_owned_lookup, Ho, Hm. done. }
          exists st'. split; [done|]. split_and!.
          * intros Hoy. pose proof (safe_disj _ _ _ _ _ t (gi_safe _ _ _ _ _ H) Hne Hi Hy Ho). congruence.
          * intros e He. rewrite (rep_elem _ _ _ _ Rt), (rep_elem _ _ _ _ Rt').
            rewrite lookup_delete_ne; [done|]. by intros ->.
          * intros Hfr. destruct (Fr j y Hy Hfr) as [F1 F2]. apply Hown in Ho. unfold ag_types in Ht.
            apply orb_true_iff in Ht as [Ht|Ht]; apply Nat.eqb_eq in Ht; subst t; done.
      - eapply safe_static; [exact Hst|apply H]. }
    destruct (IH (set_groups (<[i := g1]> (w_groups w)) (set_comps cs1 w)) (del_owned ag id ac) ags1 H1)
      as (cs2 & gs2 & ac2 & E2 & P2 & G2).
    + intros i1 i2 g2 h2 t Hlt2 Hg2 Hh2 Hm1 Hm2 Ho2. unfold ags1 in Hg2, Hh2.
      assert (i1 <> i) as N1.
      { intros ->. rewrite list_lookup_insert in Hg2 by done. injection Hg2 as <-. simpl in Hm1. set_solver. }
      assert (i2 <> i) as N2.
      { intros ->. rewrite list_lookup_insert in Hh2 by done. injection Hh2 as <-. simpl in Hm2. set_solver. }
      rewrite list_lookup_insert_ne in Hg2 by done. rewrite list_lookup_insert_ne in Hh2 by done. by eapply Ap.
    + by apply pdel_owned.
    + intros j h Hj Hx. unfold ags1 in Hj. destruct (decide (i = j)) as [<-|Hne].
      * rewrite list_lookup_insert in Hj by done. injection Hj as <-. exact (Fr i ag Hi Hx).
      * rewrite list_lookup_insert_ne in Hj by done. by eapply Fr.
    + intros j. split.
      * intros Hj. rewrite Forall_forall in Hlt. pose proof (Hlt j Hj) as Hij.
        destruct (proj1 (HL j) (elem_of_list_further _ _ _ Hj)) as (h & Hh & Hm). exists h.
        unfold ags1. rewrite list_lookup_insert_ne by lia. done.
      * intros (h & Hh & Hm). unfold ags1 in Hh. destruct (decide (i = j)) as [<-|Hne].
        -- rewrite list_lookup_insert in Hh by done. injection Hh as <-. simpl in Hm. set_solver.
        -- rewrite list_lookup_insert_ne in Hh by done.
           assert (j ∈ i :: L) as Hj by (apply HL; eauto). apply elem_of_cons in Hj as [->|Hj]; done.
    + exists cs2, gs2, ac2. rewrite E2. split; [done|]. split; [done|].
      assert ((fun g => AG (ag_kind g) (ag_a g) (ag_b g) (ag_mem g ∖ {[id]}) (ag_fresh g)) <$> ags1 =
              (fun g => AG (ag_kind g) (ag_a g) (ag_b g) (ag_mem g ∖ {[id]}) (ag_fresh g)) <$> ags) as <-; [|done].
      unfold ags1. rewrite list_fmap_insert. simpl. rewrite list_insert_id; [done|].
      rewrite list_lookup_fmap, Hi. simpl. do 2 f_equal. set_solver.
Qed.

(** ** the loop over the storages, exactly *)
Lemma dyn_loop id L w : NoDup L ->
  (forall t, t ∈ L -> exists st s', w_comps w !! t = Some st /\ cs_remove id (st_set st) = (Ret tt, s')) ->
  for_each L (fun t => dyn_mut t (cs_remove id)) w =
    (Ret tt, set_comps (map_imap (fun t st => Some (if decide (t ∈ L) then
        St (st_ty st) (cs_remove id (st_set st)).2 else st)) (w_comps w)) w).
Proof.
  revert w. induction L as [|t L IH]; intros w ND HL.
  - cbn [for_each]. assert (map_imap (fun t st => Some (if decide (t ∈ []) then St (st_ty st) (cs_remove id (st_set st)).2 else st)) (w_comps w) = w_comps w) as ->.
    { apply map_eq. intros t. rewrite map_lookup_imap. destruct (w_comps w !! t); simpl; [|done].
      done. }
    by destruct w.
  - apply NoDup_cons in ND as [Hn ND].
    destruct (HL t (elem_of_list_here _ _)) as (st & s' & Hst & Es).
    cbn [for_each].
    assert (dyn_mut t (cs_remove id) w = (Ret tt, set_comps (<[t := St (st_ty st) s']> (w_comps w)) w)) as E1.
    { unfold dyn_mut. by rewrite Hst, Es. }
    rewrite (bind_ret _ _ _ _ _ E1). rewrite IH; [|done|].
    + f_equal. unfold set_comps. cbn [w_em w_comps w_groups w_res]. f_equal.
      apply map_eq. intros u. rewrite !map_lookup_imap. destruct (decide (u = t)) as [->|Hu].
      * rewrite lookup_insert, Hst. simpl. rewrite decide_False by done.
        rewrite decide_True by left. by rewrite Es.
      * rewrite lookup_insert_ne by done. destruct (w_comps w !! u); simpl; [|done].
        destruct (decide (u ∈ L)).
        -- by rewrite decide_True by (by right).
        -- rewrite decide_False; [done|]. rewrite elem_of_cons. tauto.
    + intros u Hu. destruct (HL u (elem_of_list_further _ _ _ Hu)) as (su & su' & Hsu & Esu).
      exists su, su'. split; [|done]. simpl. rewrite lookup_insert_ne; [done|]. by intros ->.
Qed.

Lemma storages_with_elem w ac sl id ord t : srel (w_comps w) ac sl ->
  t ∈ storages_with w id ord <-> t ∈ ord /\ hasc ac t id.
Proof.
  intros S. unfold storages_with. rewrite elem_of_list_filter. unfold storage_has, hasc.
  destruct (w_comps w !! t) as [st|] eqn:E.
  - destruct (srel_Some_r _ _ _ _ _ S E) as (m & Hm & _ & Rt). rewrite Hm. simpl.
    rewrite (rep_exist _ _ _ id Rt). rewrite bool_decide_eq_true. tauto.
  - apply (srel_None _ _ _ _ S) in E. rewrite E. simpl. split; [intros [? _]; done|]. intros [_ [? ?]]. done.
Qed.

(** After the groups: what the storage loop does. *)
Lemma remove_storages ac0 sl id ord w ac ags :
  GI (w_comps w) (w_groups w) ac sl ags -> pdel id ac0 ac -> fresh_ok ac0 id ags ->
  (forall j ag, ags !! j = Some ag -> id ∉ ag_mem ag) ->
  NoDup ord -> (forall t, is_Some (ac0 !! t) -> t ∈ ord) ->
  exists cs', for_each (storages_with w id ord) (fun t => dyn_mut t (cs_remove id)) w
      = (Ret tt, set_comps cs' w) /\
    GI cs' (w_groups w) (delete id <$> ac0) sl ags /\
    cs' = map_imap (fun t st => Some (if decide (t ∈ storages_with w id ord) then
        St (st_ty st) (cs_remove id (st_set st)).2 else st)) (w_comps w).
Proof.
  intros H P Fr Hn ND Hord.
  pose proof (gi_srel _ _ _ _ _ H) as S.
  assert (forall t, t ∈ storages_with w id ord -> exists st m v s' i el, w_comps w !! t = Some st /\ st_ty st = t /\
    ac !! t = Some m /\ ss_rep (st_set st) m (sl t) /\ m !! id = Some v /\
    cs_remove id (st_set st) = (Ret tt, s') /\ ss_rep s' (delete id m) (sl t) /\
    ss_get_index (st_set st) id = Some i /\ last (entities (st_set st)) = Some el /\
    entities s' = take (length (entities (st_set st)) - 1) (<[i := el]> (entities (st_set st)))) as HL.
  { intros t Ht. apply (storages_with_elem _ _ _ _ _ _ S) in Ht as [_ Ht]. unfold hasc in Ht.
    destruct (ac !! t) as [m|] eqn:Hm; simpl in Ht; [|by destruct Ht]. destruct Ht as [v Hv].
    destruct (srel_Some _ _ _ _ _ S Hm) as (st & Hst & Ty & Rt).
    destruct (cs_remove_rep id _ _ _ v Rt Hv) as (s' & i & el & Q).
    exists st, m, v, s', i, el. tauto. }
  eexists. split; [apply dyn_loop|split; [|reflexivity]].
  { by apply NoDup_filter. }
  { intros t Ht. destruct (HL t Ht) as (st & m & v & s' & i & el & Q). exists st, s'. tauto. }
  set (cs' := map_imap (fun t st => Some (if decide (t ∈ storages_with w id ord) then
        St (st_ty st) (cs_remove id (st_set st)).2 else st)) (w_comps w)).
  assert (forall t, cs' !! t = (fun st => if decide (t ∈ storages_with w id ord) then
     St (st_ty st) (cs_remove id (st_set st)).2 else st) <$> w_comps w !! t) as Hcs.
  { intros t. unfold cs'. rewrite map_lookup_imap. by destruct (w_comps w !! t). }
  split.
  - intros t. rewrite Hcs, lookup_fmap.
    destruct (decide (t ∈ storages_with w id ord)) as [Ht|Ht].
    + destruct (HL t Ht) as (st & m & v & s' & i & el & Hst & Ty & Hm & Rt & Hv & Es & Rs & _).
      rewrite Hst. simpl. rewrite Es. simpl. 
      destruct (P t) as [Pt|Pt]; rewrite Hm in Pt.
      * rewrite <- Pt. simpl. done.
      * destruct (ac0 !! t) as [m0|]; [|done]. simpl in Pt. injection Pt as ->. simpl.
        rewrite delete_idemp in Rs. done.
    + specialize (S t). destruct (w_comps w !! t) as [st|] eqn:Est; simpl.
      * destruct (ac !! t) as [m|] eqn:Hm; [|done]. destruct S as [Ty Rt].
        assert (is_Some (ac0 !! t)) as [m0 Hm0].
        { destruct (P t) as [Pt|Pt]; rewrite Hm in Pt; destruct (ac0 !! t); by eauto. }
        assert (m = delete id m0) as ->.
        { destruct (P t) as [Pt|Pt]; rewrite Hm, Hm0 in Pt; simpl in Pt; injection Pt as ->; [|done].
          symmetry. apply delete_notin. destruct (m0 !! id) as [v|] eqn:Ev; [|done]. destruct Ht.
          apply (storages_with_elem _ _ _ _ _ _ (gi_srel _ _ _ _ _ H)). split.
          - apply Hord. by rewrite Hm0.
          - unfold hasc. rewrite Hm. simpl. by rewrite Ev. }
        rewrite Hm0. simpl. done.
      * destruct (ac !! t) as [m|] eqn:Hm; [done|]. destruct (P t) as [Pt|Pt]; rewrite Hm in Pt; destruct (ac0 !! t); done.
  - apply Forall2_same_length_lookup. split; [eapply Forall2_length; apply H|].
    intros j g ag Hg Hag. pose proof (Forall2_lookup_lr _ _ _ _ _ _ (gi_gok _ _ _ _ _ H) Hg Hag) as Hok.
    rewrite <- (agroup_eta ag). eapply gok_change; [done|done|].
    intros t st Ht Hst. rewrite Hcs, Hst. simpl. eexists. split; [done|].
    destruct (decide (t ∈ storages_with w id ord)) as [Hts|Hts]; [|done].
    destruct (HL t Hts) as (st' & m & v & s' & i & el & Hst' & Ty & Hm & Rt & Hv & Es & Rs & Hi & Hel & En).
    assert (st' = st) as -> by congruence. simpl. rewrite Es. simpl. split_and!.
    + intros Ho. rewrite En. eapply take_remove_ge; [apply Rt|done|].
      eapply gok_nonmem_pos; [exact S|done|done|done|done|]. by eapply Hn.
    + intros e He. rewrite (rep_elem _ _ _ _ Rt), (rep_elem _ _ _ _ Rs).
      rewrite lookup_delete_ne; [done|]. intros ->. by eapply (Hn j).
    + intros Hx. destruct (Fr j ag Hag Hx) as [F1 F2]. exfalso.
      assert (hasc ac0 t id) as Hh.
      { unfold hasc. destruct (P t) as [Pt|Pt]; rewrite Hm in Pt.
        - rewrite <- Pt. simpl. rewrite Hv. eauto.
        - destruct (ac0 !! t) as [m0|]; [|done]. simpl in Pt. injection Pt as ->. by rewrite lookup_delete in Hv. }
      unfold ag_types in Ht. apply orb_true_iff in Ht as [Ht|Ht]; apply Nat.eqb_eq in Ht; subst t; done.
  - apply H.
Qed.

Lemma remove_spec w aw id ord : R w aw -> live aw id -> apart (a_groups aw) id -> ord ≡ₚ (map_to_list (a_comps aw)).*1 ->
  exists w', remove_entity id ord w = (Ret tt, w') /\ R w' (a_remove id aw).
Proof.
  intros H [Hal Hnf] Ap Hord. unfold allocated in Hal. unfold remove_entity. rewrite bind_get.
  rewrite (exist_spec _ _ id H) by lia. unfold a_exist. rewrite decide_False by lia. rewrite bind_lift.
  rewrite bind_assert_true by (rewrite bool_decide_true; tauto).
  rewrite (collect_spec w _ _ id _ _ 0 (R_st _ _ H) (R_gr _ _ H)). rewrite bind_lift.
  set (p := fun g => negb (bool_decide (has aw (ag_a g) id)) && negb (bool_decide (has aw (ag_b g) id))).
  set (ags1 := defresh p <$> a_groups aw).
  assert (GI (w_comps w) (w_groups w) (a_comps aw) (a_slots aw) ags1) as G1.
  { split; [apply H| |].
    - apply Forall2_fmap_r. eapply Forall2_impl; [apply H|]. intros g ag Hg. apply gok_weaken; [done|].
      intros Hx. by apply andb_true_iff in Hx as [? _].
    - eapply safe_static; [apply defresh_static|apply H]. }
  assert (apart ags1 id) as Ap1.
  { intros i j g h t Hij Hg Hh. unfold ags1 in Hg, Hh. rewrite list_lookup_fmap in Hg, Hh.
    destruct (a_groups aw !! i) as [g0|] eqn:Eg; [|done]. destruct (a_groups aw !! j) as [h0|] eqn:Eh; [|done].
    injection Hg as <-. injection Hh as <-. exact (Ap i j g0 h0 t Hij Eg Eh). }
  assert (fresh_ok (a_comps aw) id ags1) as Fr.
  { intros j h Hj Hx. unfold ags1 in Hj. rewrite list_lookup_fmap in Hj.
    destruct (a_groups aw !! j) as [h0|]; [|done]. injection Hj as <-. simpl in Hx. unfold p in Hx.
    apply andb_true_iff in Hx as [_ Hx]. apply andb_true_iff in Hx as [X1 X2].
    apply negb_true_iff, bool_decide_eq_false in X1. apply negb_true_iff, bool_decide_eq_false in X2. done. }
  destruct (remove_groups (a_comps aw) (a_slots aw) id (mem_pos id (a_groups aw) 0) w (a_comps aw) ags1 G1 Ap1
     (pdel_refl _ _) Fr (mem_pos_sorted _ _ _)) as (cs1 & gs1 & ac1 & E1 & P1 & G2).
  { intros i. rewrite mem_pos_elem. split.
    - intros (j & g & -> & Hg & Hin). simpl. exists (defresh p g). unfold ags1.
      rewrite list_lookup_fmap, Hg. done.
    - intros (ag & Hag & Hin). unfold ags1 in Hag. rewrite list_lookup_fmap in Hag.
      destruct (a_groups aw !! i) as [g0|] eqn:Eg; [|done]. injection Hag as <-. exists i, g0. done. }
  rewrite (bind_ret _ _ _ _ _ E1). rewrite bind_get.
  destruct (remove_storages (a_comps aw) (a_slots aw) id ord (set_groups gs1 (set_comps cs1 w)) ac1 _ G2 P1)
    as (cs2 & E2 & G3 & _).
  { intros j h Hj Hx. rewrite list_lookup_fmap in Hj. destruct (ags1 !! j) as [h0|] eqn:E; [|done].
    injection Hj as <-. exact (Fr j h0 E Hx). }
  { intros j ag Hj. rewrite list_lookup_fmap in Hj. destruct (ags1 !! j) as [h0|] eqn:E; [|done].
    injection Hj as <-. simpl. set_solver. }
  { rewrite Hord. apply NoDup_fst_map_to_list. }
  { intros t [m Hm]. rewrite Hord. apply elem_of_list_fmap. exists (t, m). split; [done|]. by apply elem_of_map_to_list. }
  rewrite (bind_ret _ _ _ _ _ E2).
  destruct (em_remove_spec _ _ _ id (R_em _ _ H) Hal Hnf) as (e' & E3 & He).
  unfold on_em. cbn [w_em set_comps set_groups]. rewrite E3. eexists. split; [done|].
  assert (((fun g => AG (ag_kind g) (ag_a g) (ag_b g) (ag_mem g ∖ {[id]}) (ag_fresh g)) <$> ags1)
     = g_remove aw id <$> a_groups aw) as Heq.
  { unfold ags1. rewrite <- list_fmap_compose. apply list_fmap_ext. intros _ g _.
    unfold g_remove, defresh, p. simpl. f_equal. by rewrite andb_assoc. }
  split; simpl; try apply H.
  - done.
  - apply G3.
  - rewrite <- Heq. apply G3.
  - rewrite <- Heq. apply G3.
Qed.

Lemma remove_dead_spec w aw id ord : R w aw -> 1 <= id -> ~ live aw id -> last (a_free aw) <> Some id ->
  remove_entity id ord w = (Panic, w).
Proof.
  intros H Hid Hnl Hl. unfold remove_entity. rewrite bind_get.
  rewrite (exist_spec _ _ id H) by done. unfold a_exist. case_decide as C; [done|]. rewrite bind_lift.
  rewrite bind_assert_false; [done|]. apply bool_decide_eq_false. intros [Hn|Hn]; [|done].
  apply Hnl. split; [unfold allocated; lia|done].
Qed.

(** The enumeration order of the component table does not matter. *)
Lemma remove_order w aw id ord ord' : R w aw -> NoDup ord -> ord ≡ₚ ord' ->
  (forall t, is_Some (a_comps aw !! t) -> t ∈ ord) -> live aw id -> apart (a_groups aw) id ->
  remove_entity id ord w = remove_entity id ord' w.
Proof.
  intros H ND Hp Hin [Hal Hnf] Ap. unfold allocated in Hal. unfold remove_entity. rewrite !bind_get.
  rewrite (exist_spec _ _ id H) by lia. unfold a_exist. rewrite decide_False by lia. rewrite !bind_lift.
  rewrite !bind_assert_true by (rewrite bool_decide_true; tauto).
  rewrite (collect_spec w _ _ id _ _ 0 (R_st _ _ H) (R_gr _ _ H)). rewrite !bind_lift.
  set (p := fun _ : agroup => false).
  set (ags1 := defresh p <$> a_groups aw).
  assert (GI (w_comps w) (w_groups w) (a_comps aw) (a_slots aw) ags1) as G1.
  { split; [apply H| |].
    - apply Forall2_fmap_r. eapply Forall2_impl; [apply H|]. intros g ag Hg. apply gok_weaken; [done|].
      intros Hx. by apply andb_true_iff in Hx as [? _].
    - eapply safe_static; [apply defresh_static|apply H]. }
  assert (apart ags1 id) as Ap1.
  { intros i j g h t Hij Hg Hh. unfold ags1 in Hg, Hh. rewrite list_lookup_fmap in Hg, Hh.
    destruct (a_groups aw !! i) as [g0|] eqn:Eg; [|done]. destruct (a_groups aw !! j) as [h0|] eqn:Eh; [|done].
    injection Hg as <-. injection Hh as <-. exact (Ap i j g0 h0 t Hij Eg Eh). }
  assert (fresh_ok (a_comps aw) id ags1) as Fr.
  { intros j h Hj Hx. unfold ags1 in Hj. rewrite list_lookup_fmap in Hj.
    destruct (a_groups aw !! j) as [h0|]; [|done]. injection Hj as <-. simpl in Hx. by rewrite andb_false_r in Hx. }
  destruct (remove_groups (a_comps aw) (a_slots aw) id (mem_pos id (a_groups aw) 0) w (a_comps aw) ags1 G1 Ap1
     (pdel_refl _ _) Fr (mem_pos_sorted _ _ _)) as (cs1 & gs1 & ac1 & E1 & P1 & G2).
  { intros i. rewrite mem_pos_elem. split.
    - intros (j & g & -> & Hg & Hin'). simpl. exists (defresh p g). unfold ags1.
      rewrite list_lookup_fmap, Hg. done.
    - intros (ag & Hag & Hin'). unfold ags1 in Hag. rewrite list_lookup_fmap in Hag.
      destruct (a_groups aw !! i) as [g0|] eqn:Eg; [|done]. injection Hag as <-. exists i, g0. done. }
  rewrite !(bind_ret _ _ _ _ _ E1). rewrite !bind_get.
  assert (fresh_ok (a_comps aw) id
     ((fun g => AG (ag_kind g) (ag_a g) (ag_b g) (ag_mem g ∖ {[id]}) (ag_fresh g)) <$> ags1)) as Fr2.
  { intros j h Hj Hx. rewrite list_lookup_fmap in Hj. destruct (ags1 !! j) as [h0|] eqn:E; [|done].
    injection Hj as <-. exact (Fr j h0 E Hx). }
  assert (forall j ag, ((fun g => AG (ag_kind g) (ag_a g) (ag_b g) (ag_mem g ∖ {[id]}) (ag_fresh g)) <$> ags1) !! j
     = Some ag -> id ∉ ag_mem ag) as Hnm.
  { intros j ag Hj. rewrite list_lookup_fmap in Hj. destruct (ags1 !! j) as [h0|] eqn:E; [|done].
    injection Hj as <-. simpl. set_solver. }
  destruct (remove_storages (a_comps aw) (a_slots aw) id ord (set_groups gs1 (set_comps cs1 w)) ac1 _ G2 P1)
    as (cs2 & E2 & _ & C2); [done|done|done|done|].
  destruct (remove_storages (a_comps aw) (a_slots aw) id ord' (set_groups gs1 (set_comps cs1 w)) ac1 _ G2 P1)
    as (cs3 & E3 & _ & C3); [done|done|by rewrite <- Hp|intros t Ht; rewrite <- Hp; by apply Hin|].
  rewrite (bind_ret _ _ _ _ _ E2), (bind_ret _ _ _ _ _ E3).
  assert (cs2 = cs3) as ->; [|done]. rewrite C2, C3. apply map_eq. intros t.
  rewrite !map_lookup_imap. destruct (w_comps _ !! t) as [st|]; [|done]. simpl. f_equal.
  assert (t ∈ storages_with (set_groups gs1 (set_comps cs1 w)) id ord <->
          t ∈ storages_with (set_groups gs1 (set_comps cs1 w)) id ord') as Hiff.
  { unfold storages_with. rewrite !elem_of_list_filter. by rewrite Hp. }
  repeat case_decide; tauto.
Qed.

End remove.

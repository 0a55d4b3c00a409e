(** C58: calls broken off by a panic of the user's code leave the world safe. *)
From stdpp Require Import prelude list gmap.
From Verif Require Import PropConc SpecValue SpecValue2 ProofValue ProofValue3 PropValue PropValue2.
From Verif Require Import Base Api ModelSparse ModelEntity ModelGroup ModelWorld ModelQuery ModelStep ModelConc SpecConc ModelLife
  Spec History Rules ProofSparse ProofEntity ProofGroup ProofWorld ProofMain ProofHistory ProofWf ProofTerm ProofConc ProofConc2 ProofConc3 ProofConc4 ProofConc5
  ProofConc6 ProofConc7 ProofConc8 ProofConc9 ProofConc10 ProofConc11
  ProofQueryMut ProofQuery3 ProofQuery4 SpecLoose ProofLoose ProofLoose2 PropEntity PropWorld PropQuery PropSafe PropLoose SpecLife PropLife
  ModelBreak SpecBreak.

Section breaks.
Context {V : Type}.
Implicit Types (s : ModelLife.life V) (bs : list (baction V)) (w : world V) (b : baction V).

Lemma livedb_app bs1 bs2 s : livedb (V := V) (bs1 ++ bs2) s = match livedb bs1 s with Some s' => livedb bs2 s' | None => None end.
Proof. revert s. induction bs1 as [|b bs1 IH]; intros s; cbn [app livedb]; [done|]. destruct (act1b b s); [apply IH|done]. Qed.
Lemma livedb_snoc bs1 b s s' : livedb (V := V) (bs1 ++ [b]) s = Some s' -> exists s1, livedb bs1 s = Some s1 /\ act1b b s1 = Some s'.
Proof. rewrite livedb_app. destruct (livedb bs1 s) as [s1|]; [|done]. cbn [livedb]. intros H. exists s1. split; [done|]. by destruct (act1b b s1). Qed.
Lemma orderlyx_snoc bs b : orderlyx (V := V) (bs ++ [b]) -> orderlyx bs /\ forall s, livedb bs born = Some s -> mayx s b.
Proof.
  intros H. split; [|intros s Hs; by apply (H bs b [] s)]. intros pre b' post s ->. apply (H pre b' (post ++ [b])). by rewrite <- app_assoc.
Qed.
(** Lives in which nothing is broken off are those of C54. *)
Lemma livedb_acts acts s : livedb (V := V) (map BAct acts) s = lived acts s.
Proof. revert s. induction acts as [|a acts IH]; intros s; cbn [map livedb lived act1b]; [done|]. destruct (act1 a s); [apply IH|done]. Qed.

(** ** Half a removal *)
Lemma keeps_half_full id : same_types_d fty (@full_remove V id >>! on_a (cs_remove id)).
Proof. change (ProofConc2.keeps fty (@full_remove V id >>! on_a (cs_remove id))). apply keeps_bind; [apply keeps_full_remove|]. intros ?. apply keeps_on_a. Qed.
Lemma half_confined w0 k a u j id : group_head j w0 = Some (k, a, u) ->
  confined w0 [(LGroup j, true); (LStore a, mode_a k); (LStore u, mode_b k)] (half_kill (V := V) j id).
Proof.
  intros H. unfold half_kill. eapply confined_run_group; [exact H|set_solver|set_solver|set_solver|apply keeps_half_full|apply keeps_part_kill|apply keeps_non_remove].
Qed.
Lemma half_shape j id w : same_shape w (half_kill (V := V) j id w).2.
Proof.
  destruct (group_head j w) as [[[k a] u]|] eqn:E.
  - exact (proj1 (half_confined w k a u j id E w (shape_refl w))).
  - unfold half_kill, run_group_at, group_head in *. destruct (w_groups w !! j) as [[]|]; done.
Qed.
Lemma half_good j id w : good w -> good (half_kill (V := V) j id w).2.
Proof.
  intros G. unfold half_kill. apply ok_run_group; [| |apply ok_non_remove|done].
  - apply ok_bind; [apply ok_full_remove|]. intros _. apply ok_on_a, ok_cs_remove.
  - apply ok_bind; [apply ok_part_remove|]. intros _. apply ok_on_a, ok_cs_remove.
Qed.
Lemma gV_half_full va vb id : ok (gV (Some id) (fun _ => True) va vb) (@full_remove V id >>! on_a (cs_remove id)).
Proof. apply ok_bind; [apply gV_full_remove|]. intros ?. by apply gV_on_a, vI_cs_remove. Qed.
Lemma half_values j id0 w t id : good w -> work_on w (BKill j id0) t id (wvalue w t id) (wvalue (half_kill (V := V) j id0 w).2 t id).
Proof.
  intros G. destruct (group_values (Some id0) j _ _ (non_remove id0) w G (fun va vb => gV_half_full va vb id0) (fun va vb => gV_part_kill va vb id0) t id)
    as [E|(H1 & H2 & H3)]; cbn [work_on]; [by left|right]. split; [done|]. split; [by injection H2|exact H3].
Qed.

(** ** The invariant *)
Lemma break_inv half i h e cl s s' : break_off (V := V) half i h e cl s = Some s' ->
  exists th w', lf_users s !! i = Some th /\ midway th = true /\ forallb no_iter e = true /\ h ++ all_holds e ≡ₚ th_holds th /\
    s' = Life w' (<[i := Th (th_holds th) (rels h (compile e cl))]> (lf_users s)) /\
    (if half then exists j id (B : Type) (f : M (world V) B) k, th_prog th = PAct (BKill j id) f k /\ w' = (half_kill j id (lf_world s)).2 else w' = lf_world s).
Proof.
  unfold break_off. destruct (lf_users s !! i) as [th|]; [|done]. destruct (midway th) eqn:Em; [|done]. destruct (forallb no_iter e) eqn:En; [|done].
  destruct (bool_decide _) eqn:Eb; [|done]. apply bool_decide_eq_true in Eb. cbn [andb].
  destruct half.
  - destruct (half_done th (lf_world s)) as [w'|] eqn:Eh; [|done]. intros [= <-]. exists th, w'. do 5 (split; [done|]).
    unfold half_done in Eh. destruct (th_prog th) as [a| | | |l x k|l x k|B lab f k]; try done. destruct lab as [| | | | | | | | | |j id| |]; try done.
    exists j, id, B, f, k. split; [done|]. destruct (half_kill j id (lf_world s)) as [[[]| | |] w1]; try done. by injection Eh as <-.
  - intros [= <-]. by exists th, (lf_world s).
Qed.
Lemma kept_ok w0 pl e : forallb no_iter e = true -> Forall (obj_ok (V := V) w0 pl) e.
Proof. intros H. apply Forall_forall. intros ob Hin. apply elem_of_list_In in Hin. rewrite forallb_forall in H. specialize (H ob Hin). by destruct ob. Qed.

Lemma breaks_inv s b s' : linv s -> mayx s b -> act1b b s = Some s' -> linv s'.
Proof.
  intros L H E. destruct b as [a|half i h e cl]; cbn [act1b mayx] in *; [by eapply act_inv|].
  pose proof (li_good s L) as G. apply break_inv in E as (th & w' & Hi & _ & Hn & Hp & -> & Hw). destruct L as [H0 [w0 HI]].
  assert (same_shape (lf_world s) w' /\ good w' /\ zero w') as (Hs & G' & H0').
  { destruct half; [|by subst w'; split; [apply shape_refl|]]. destruct Hw as (j & id & B & f & k & _ & ->).
    split; [apply half_shape|]. split; [by apply half_good|]. intros t. pose proof (half_values j id (lf_world s) t 0 G) as K.
    rewrite H0 in K. destruct K as [K|(_ & _ & K)]; exact K. }
  split; [exact H0'|]. exists w0. unfold conf_of. cbn [lf_world lf_users].
  apply (cinv_put w0 nolt True (conf_of s) i th _ w' HI Hi).
  - eapply shape_trans; [exact (ci_shape _ _ _ _ HI)|exact Hs].
  - done.
  - cbn [th_holds th_prog]. eapply wp_rels; [symmetry; exact Hp|]. apply wp_compile; [by apply kept_ok|]. by apply any_client.
  - cbn [th_holds]. eapply excl_perm; [apply (locks_split (conf_of s) i th Hi)|]. exact (ci_excl _ _ _ _ HI).
Qed.
Lemma broken_inv bs s : orderlyx bs -> livedb bs born = Some s -> linv s.
Proof.
  revert s. induction bs as [|b bs IH] using rev_ind; intros s Ho H.
  - injection H as <-. apply (life_inv []); [|done]. intros [] ? ? ? ?; done.
  - apply orderlyx_snoc in Ho as [Ho Ha]. apply livedb_snoc in H as (s1 & H1 & E). eapply breaks_inv; [by apply IH|by apply Ha|done].
Qed.

(** ** Nothing is undefined behaviour

    Whatever calls were broken off and where: no user runs into undefined
    behaviour, and no exclusive call that could be made is.  (Of calls without
    group queries: C58_group_refuted.) *)
Theorem C58_safe_partial bs s : orderlyx bs -> livedb bs born = Some s ->
  (forall i, ~ crashed (conf_of s) i) /\ (forall o, may s (Do o) -> tells (lf_world s) o <> UB).
Proof.
  intros Ho H. pose proof (broken_inv bs s Ho H) as L. pose proof (li_good s L) as G. split.
  - intros i (th & Hi & Hu). destruct L as [_ [w0 HI]]. pose proof (ci_thr _ _ _ _ HI i th Hi) as Hw. rewrite Hu in Hw. by apply Hw.
  - intros o Hm. apply good_step; [done|]. by apply may_tame.
Qed.

(** ** Every action does to the components what it is meant to do; breaking a
    call off changes nothing, or removes what was being removed *)
Theorem C58_values bs b s s' t id : orderlyx (bs ++ [b]) -> livedb bs born = Some s -> act1b b s = Some s' ->
  action_onb s b t id (SpecConc.shows (lf_world s) t id) (SpecConc.shows (lf_world s') t id).
Proof.
  intros Ho H E. apply orderlyx_snoc in Ho as [Ho Ha]. pose proof (broken_inv bs s Ho H) as L. specialize (Ha s H).
  pose proof (breaks_inv s b s' L Ha E) as L'. rewrite (shows_wvalue _ t id (li_good _ L)), (shows_wvalue _ t id (li_good _ L')).
  destruct b as [[cl|i|o]|half i h e cl]; cbn [mayx may act1b act1 action_onb action_on] in *.
  - by injection E as <-.
  - destruct (cstep i (conf_of s)) as [c'|] eqn:Ec; [|done]. injection E as <-. destruct L as [_ [w0 HI]].
    exact (move_effect w0 i _ _ t id HI Ha Ec).
  - apply act_do in E as [-> _]. apply do_effect; [exact (li_good _ L)|apply L|done].
  - apply break_inv in E as (th & w' & Hi & _ & _ & _ & -> & Hw). cbn [lf_world]. destruct half; [|by subst w'].
    destruct Hw as (j & id0 & B & f & k & Hp & ->). unfold did, next_label, conf_of. cbn [cf_threads]. rewrite Hi, Hp.
    apply half_values. exact (li_good _ L).
Qed.

(** ** The world always looks like one a single thread left, no call having
    been broken off *)
Theorem C58_like bs s : orderlyx bs -> livedb bs born = Some s ->
  exists ops, rules ops /\ forall o, looks o = true -> tells (lf_world s) o = answer ops o.
Proof.
  intros Ho H. pose proof (broken_inv bs s Ho H) as L. pose proof (li_good s L) as G.
  destruct (same_components _ G (zero_entities _ G (li_zero _ L))) as (ops & Hh & Hs).
  exists ops. split; [exact (harmless_rules ops a_init Hh)|]. intros o Hl. exact (looks_csame _ _ o Hs Hl).
Qed.

(** ** Guards and locks (for any clients, group queries too) *)
Record binv s : Prop := { bi_c : exists w0, cinv w0 nolt False (conf_of s) }.
Lemma bact_inv s b s' : binv s -> act1b b s = Some s' -> binv s'.
Proof.
  intros [[w0 HI]] E. split. destruct b as [[cl|i|o]|half i h e cl]; cbn [act1b act1] in E.
  - injection E as <-. exists w0. split; [exact (ci_shape _ _ _ _ HI)|done| |].
    + intros i th. unfold conf_of. cbn [cf_threads lf_users]. intros Hi. apply lookup_app_Some in Hi as [Hi|[_ Hi]].
      * exact (ci_thr _ _ _ _ HI i th Hi).
      * apply list_lookup_singleton_Some in Hi as [_ <-]. cbn [th_holds th_prog]. apply (wp_compile w0 nolt False cl []); [done|].
        by apply any_client.
    + pose proof (ci_excl _ _ _ _ HI) as K. unfold all_locks, conf_of in *. cbn [cf_threads lf_users] in *. rewrite map_app, concat_app. cbn.
      by rewrite app_nil_r.
  - destruct (cstep i (conf_of s)) as [c'|] eqn:Ec; [|done]. injection E as <-. exists w0. unfold conf_of. cbn [lf_world lf_users]. destruct c' as [w' ths].
    eapply cstep_cinv; [exact HI|done|exact Ec].
  - apply act_do in E as [-> _]. exists (step o (lf_world s)).2. unfold conf_of. cbn [lf_world lf_users]. by apply (start_cinv _ nolt False []).
  - apply break_inv in E as (th & w' & Hi & _ & Hn & Hp & -> & Hw). exists w0. unfold conf_of. cbn [lf_world lf_users].
    apply (cinv_put w0 nolt False (conf_of s) i th _ w' HI Hi).
    + eapply shape_trans; [exact (ci_shape _ _ _ _ HI)|]. destruct half; [|by subst w'; apply shape_refl].
      destruct Hw as (j & id & B & f & k & _ & ->). apply half_shape.
    + done.
    + cbn [th_holds th_prog]. eapply wp_rels; [symmetry; exact Hp|]. apply wp_compile; [by apply kept_ok|]. by apply any_client.
    + cbn [th_holds]. eapply excl_perm; [apply (locks_split (conf_of s) i th Hi)|]. exact (ci_excl _ _ _ _ HI).
Qed.
Lemma life_binv bs s : livedb bs born = Some s -> binv s.
Proof.
  revert s. induction bs as [|b bs IH] using rev_ind; intros s H.
  - injection H as <-. split. exists w_new. by apply (start_cinv _ nolt False []).
  - apply livedb_snoc in H as (s1 & H1 & E). eapply bact_inv; [by apply IH|done].
Qed.
(** Two guards on one lock are both shared, also of users whose calls were
    broken off. *)
Theorem C58_guards_exclude bs s i j l x y : livedb bs born = Some s -> i <> j ->
  guard_of (conf_of s) i (l, x) -> guard_of (conf_of s) j (l, y) -> x = false /\ y = false.
Proof.
  intros H Hij (ti & Hi & Hgi) (tj & Hj & Hgj). destruct (life_binv bs s H) as [[w0 HI]].
  pose proof (excl_perm _ _ (locks_split (conf_of s) i ti Hi) (ci_excl _ _ _ _ HI)) as He.
  refine (excl_app _ _ l x y He Hgi _).
  apply elem_of_list_In, List.in_concat. exists (th_holds tj). rewrite <- !elem_of_list_In. split; [|done]. apply elem_of_list_fmap. exists tj. split; [done|].
  destruct (decide (j < i)).
  - apply (elem_of_list_lookup_2 _ j). by rewrite lookup_delete_lt.
  - apply (elem_of_list_lookup_2 _ (pred j)). rewrite lookup_delete_ge by lia. by replace (S (pred j)) with j by lia.
Qed.
(** A user that is over has no guard left, broken off or not: exclusive calls
    can be made. *)
Theorem C58_nothing_left bs s th : livedb bs born = Some s -> th ∈ lf_users s -> over th = true -> th_holds th = [].
Proof.
  intros H Hin Ho. destruct (life_binv bs s H) as [[w0 HI]].
  apply elem_of_list_lookup in Hin as [i Hi]. pose proof (ci_thr _ _ _ _ HI i th Hi) as Hw. unfold over in Ho. destruct (th_prog th); try done.
  cbn in Hw. destruct Hw as (m & Hm & ->). by apply Permutation_nil in Hm.
Qed.

(** ** Unwinding releases the locks

    A user broken off always can drop the next of the guards it drops, whatever
    the others do meanwhile, and then has the guards of the objects it kept
    and no others, and goes on with what it does next. *)
Lemma leaves_step i b s s' th : leaves i b = true -> act1b b s = Some s' -> lf_users s !! i = Some th -> moves_of i [b] = 0 -> lf_users s' !! i = Some th.
Proof.
  intros Hl E Hi Hm. destruct b as [[cl|j|o]|half j h e cl]; cbn [leaves] in Hl; try done; cbn [act1b act1] in E.
  - injection E as <-. cbn [lf_users]. by apply lookup_app_l_Some.
  - destruct (cstep j (conf_of s)) as [c'|] eqn:Ec; [|done]. injection E as <-. cbn [lf_users]. cbn [moves_of] in Hm.
    destruct (j =? i) eqn:Ej; [done|]. apply Nat.eqb_neq in Ej. by rewrite (step_other j i _ _ Ej Ec).
  - apply break_inv in E as (th' & w' & _ & _ & _ & _ & -> & _). cbn [lf_users]. apply negb_true_iff, Nat.eqb_neq in Hl. by rewrite list_lookup_insert_ne.
Qed.
Lemma moves_of_app i bs1 bs2 : moves_of (V := V) i (bs1 ++ bs2) = moves_of i bs1 + moves_of i bs2.
Proof. induction bs1 as [|[[|j|]|] bs1 IH]; cbn [app moves_of]; try done. rewrite IH. lia. Qed.
Theorem C58_released half i h e cl s s1 rest s2 : act1b (Break half i h e cl) s = Some s1 ->
  Forall (fun b => leaves i b = true) rest -> livedb rest s1 = Some s2 -> moves_of i rest <= length h ->
  exists th, lf_users s2 !! i = Some th /\ th_holds th ≡ₚ drop (moves_of i rest) h ++ all_holds e /\
    (moves_of i rest < length h -> exists s3, act1b (BAct (Move i)) s2 = Some s3) /\
    (moves_of i rest = length h -> th_prog th = compile e cl).
Proof.
  intros E Hr Hs Hn.
  assert (exists th, lf_users s2 !! i = Some th /\ th_holds th ≡ₚ drop (moves_of i rest) h ++ all_holds e /\
    th_prog th = rels (drop (moves_of i rest) h) (compile e cl)) as (th & Hi & Hp & Hq).
  { revert s2 Hs Hn. induction rest as [|b rest IH] using rev_ind; intros s2 Hs Hn.
    - injection Hs as <-. cbn [act1b] in E. apply break_inv in E as (th & w' & Hi & _ & _ & Hp & -> & _). cbn [lf_users].
      exists (Th (th_holds th) (rels h (compile e cl))). split; [eapply list_lookup_insert, lookup_lt_Some, Hi|]. by split.
    - apply Forall_app in Hr as [Hr [Hb _]%Forall_cons]. apply livedb_snoc in Hs as (s3 & H3 & E3). rewrite moves_of_app in *.
      destruct (IH Hr s3 H3) as (th & Hi & Hp & Hq); [lia|]. destruct (decide (moves_of i [b] = 0)) as [Hm|Hm].
      { exists th. rewrite Hm, Nat.add_0_r. split; [by eapply leaves_step|]. by split. }
      destruct b as [[c|j|o]|]; try done. cbn [moves_of] in *. destruct (j =? i) eqn:Ej; [|done]. apply Nat.eqb_eq in Ej as ->.
      destruct (drop (moves_of i rest) h) as [|[l x] h'] eqn:Ed.
      { exfalso. assert (length (drop (moves_of i rest) h) = 0) as Hl by by rewrite Ed. rewrite drop_length in Hl. lia. }
      assert (drop (moves_of i rest + (1 + 0)) h = h') as ->. { pose proof (drop_drop h 1 (moves_of i rest)) as K. rewrite Ed in K. cbn in K. symmetry. exact K. }
      cbn [act1b act1] in E3. unfold cstep, conf_of in E3. cbn [cf_threads cf_world] in E3. rewrite Hi in E3. destruct th as [hs p].
      cbn [th_prog th_holds] in *. subst p. cbn in E3. injection E3 as <-. cbn [lf_users].
      eexists. split; [eapply list_lookup_insert, lookup_lt_Some, Hi|]. cbn [th_holds th_prog]. split; [|done].
      by apply drop_hold_cons. }
  exists th. split; [done|]. split; [done|]. split.
  - intros Hl. destruct (drop (moves_of i rest) h) as [|[l x] h'] eqn:Ed.
    { exfalso. assert (length (drop (moves_of i rest) h) = 0) as Hl' by by rewrite Ed. rewrite drop_length in Hl'. lia. }
    cbn [act1b act1]. unfold cstep, conf_of. cbn [cf_threads cf_world]. rewrite Hi. unfold tstep. rewrite Hq. cbn. by eexists.
  - intros El. rewrite Hq, El, drop_all. done.
Qed.

(** ** An exclusive call's turn comes *)
Lemma cinv_finish rank gq w c : cinv w (llt rank gq) False c ->
  exists sched c', run sched c = Some c' /\ ((exists i, crashed c' i) \/ forall i th, cf_threads c' !! i = Some th -> finished c' i).
Proof.
  pose proof (runs_end c) as HA. induction HA as [c _ IH]. intros HI.
  destruct (decide (Exists (fun i => is_Some (cstep i c)) (seq 0 (length (cf_threads c))))) as [He|Hn].
  - apply Exists_exists in He as (i & _ & [c1 Ec]). destruct (IH c1) as (sched & c' & Hs & H); [by exists i|by eapply cstep_cinv|].
    exists (i :: sched), c'. split; [cbn [run]; by rewrite Ec|done].
  - exists [], c. split; [done|].
    destruct (no_deadlock w (llt rank gq) False (llt_irr rank gq) (llt_trans rank gq) c HI) as [H|[H|[j [[c' H] _]]]]; [by right|by left|].
    exfalso. apply Hn, Exists_exists. exists j. split; [|by rewrite H]. apply elem_of_seq. split; [lia|]. apply lookup_lt_is_Some.
    unfold cstep in H. by destruct (cf_threads c !! j).
Qed.
Lemma keeps_like_held held e : keeps_like held e -> keeps_held held (map (obj_holds (V := V)) e).
Proof. destruct held as [[]|]; cbn; [intros (ob & -> & H); cbn; by rewrite H|intros (ob & ->); by eexists|by intros ->]. Qed.
Lemma turn_inv rank gq w s b s' : groups_in_order rank w -> cinv w (llt rank gq) False (conf_of s) -> in_turn rank gq w b -> act1b b s = Some s' ->
  cinv w (llt rank gq) False (conf_of s').
Proof.
  intros Hg HI Hb E. destruct b as [[cl|i|o]|half i h e cl]; cbn [act1b act1 in_turn] in *; [..|].
  - injection E as <-. split; [exact (ci_shape _ _ _ _ HI)|done| |].
    + intros i th. unfold conf_of. cbn [cf_threads lf_users]. intros Hi. apply lookup_app_Some in Hi as [Hi|[_ Hi]].
      * exact (ci_thr _ _ _ _ HI i th Hi).
      * apply list_lookup_singleton_Some in Hi as [_ <-]. cbn [th_holds th_prog]. apply (wp_compile w (llt rank gq) False cl []); [done|].
        eapply (tidy_client rank gq w Hg cl None); [done|exact Hb].
    + pose proof (ci_excl _ _ _ _ HI) as K. unfold all_locks, conf_of in *. cbn [cf_threads lf_users] in *. rewrite map_app, concat_app. cbn.
      by rewrite app_nil_r.
  - destruct (cstep i (conf_of s)) as [c'|] eqn:Ec; [|done]. injection E as <-. unfold conf_of. cbn [lf_world lf_users]. destruct c' as [w' ths].
    eapply cstep_cinv; [exact HI|done|exact Ec].
  - done.
  - apply break_inv in E as (th & w' & Hi & _ & Hn & Hp & -> & Hw). unfold conf_of. cbn [lf_world lf_users].
    apply (cinv_put w (llt rank gq) False (conf_of s) i th _ w' HI Hi).
    + eapply shape_trans; [exact (ci_shape _ _ _ _ HI)|]. destruct half; [|by subst w'; apply shape_refl].
      destruct Hw as (j & id & B & f & k & _ & ->). apply half_shape.
    + done.
    + cbn [th_holds th_prog]. eapply wp_rels; [symmetry; exact Hp|]. apply wp_compile; [by apply kept_ok|].
      destruct Hb as (held & Hk & Ht). eapply (tidy_client rank gq w Hg cl held); [by apply keeps_like_held|exact Ht].
    + cbn [th_holds]. eapply excl_perm; [apply (locks_split (conf_of s) i th Hi)|]. exact (ci_excl _ _ _ _ HI).
Qed.
Lemma run_livedb sched s c' : run sched (conf_of s) = Some c' -> livedb (map (fun i => BAct (Move i)) sched) s = Some (ModelLife.Life (cf_world c') (cf_threads c')).
Proof. intros H. rewrite <- (map_map Move BAct), livedb_acts. by apply run_lived. Qed.
(** Let the users that entered since the last exclusive call take their locks
    in order, also after being broken off.  Then from every moment on their
    steps can be made until all are over and an exclusive call can be made (or
    one of them ran into undefined behaviour: C58_safe_partial says when not):
    breaking calls off leaves nobody waiting for ever. *)
Theorem C58_turn rank gq bs0 bs s0 s : livedb bs0 born = Some s0 -> lf_users s0 = [] -> groups_in_order rank (lf_world s0) ->
  Forall (in_turn rank gq (lf_world s0)) bs -> livedb bs s0 = Some s ->
  exists sched s', livedb (bs0 ++ bs ++ map (fun i => BAct (Move i)) sched) born = Some s' /\
    ((exists i, crashed (conf_of s') i) \/
     forallb over (lf_users s') = true /\ forall th, th ∈ lf_users s' -> th_holds th = []).
Proof.
  intros H0 Hu Hg Hb H.
  assert (cinv (lf_world s0) (llt rank gq) False (conf_of s)) as HI.
  { revert s H. induction bs as [|b bs IH] using rev_ind; intros s H.
    - injection H as <-. unfold conf_of. rewrite Hu. by apply (start_cinv _ (llt rank gq) False []).
    - apply Forall_app in Hb as [Hb [Hb1 _]%Forall_cons]. apply livedb_snoc in H as (s1 & H1 & E). eapply turn_inv; [done|by apply IH|done|done]. }
  destruct (cinv_finish rank gq _ _ HI) as (sched & c' & Hs & Hf).
  exists sched, (ModelLife.Life (cf_world c') (cf_threads c')). split; [rewrite livedb_app, H0, livedb_app, H; by apply run_livedb|].
  assert (conf_of (ModelLife.Life (cf_world c') (cf_threads c')) = c') as E by (by destruct c'). rewrite E.
  destruct Hf as [Hf|Hf]; [by left|right]. cbn [lf_users]. split.
  - apply forallb_forall. intros th Hin. apply elem_of_list_In, elem_of_list_lookup in Hin as [i Hi]. destruct (Hf i th Hi) as (th' & Hi' & Hp & _).
    rewrite Hi in Hi'. injection Hi' as <-. unfold over. by rewrite Hp.
  - intros th Hin. apply elem_of_list_lookup in Hin as [i Hi]. destruct (Hf i th Hi) as (th' & Hi' & _ & Hh).
    rewrite Hi in Hi'. by injection Hi' as <-.
Qed.

(** ** Types and resources are those the exclusive calls registered *)
Lemma exclusivesb_snoc bs b s0 s1 s' : livedb bs s0 = Some s1 -> act1b b s1 = Some s' ->
  exclusivesb (bs ++ [b]) s0 = exclusivesb bs s0 ++ match b with BAct (Do o) => [(o, tells (lf_world s1) o)] | _ => [] end.
Proof.
  revert s0. induction bs as [|b' bs IH]; intros s0 H E; cbn [livedb exclusivesb app] in *.
  - injection H as ->. rewrite E. by rewrite app_nil_r.
  - destruct (act1b b' s0) as [s2|]; [|done]. rewrite (IH s2 H E). by rewrite app_assoc.
Qed.
Lemma broken_fixed bs s : livedb bs born = Some s -> fixed (lf_world s) (exclusivesb bs born).
Proof.
  revert s. induction bs as [|b bs IH] using rev_ind; intros s H.
  - injection H as <-. split; [|done|done]. intros t. cbn. split; [by intros [? ?]|set_solver].
  - apply livedb_snoc in H as (s1 & H1 & E). rewrite (exclusivesb_snoc bs b born s1 s H1 E). specialize (IH s1 H1).
    destruct (life_binv bs s1 H1) as [[w0 HI]]. destruct b as [[cl|i|o]|half i h e cl].
    + rewrite app_nil_r. by injection E as <-.
    + rewrite app_nil_r. cbn [act1b act1] in E. destruct (cstep i (conf_of s1)) as [c'|] eqn:Ec; [|done]. injection E as <-.
      eapply fixed_shape; [exact IH|]. eapply shape_trans; [apply shape_sym; exact (ci_shape _ _ _ _ HI)|].
      assert (cinv w0 nolt False c') as HI' by (by eapply cstep_cinv). exact (ci_shape _ _ _ _ HI').
    + apply act_do in E as [-> _]. cbn [lf_world]. by apply fixed_step.
    + rewrite app_nil_r. cbn [act1b] in E. apply break_inv in E as (th & w' & _ & _ & _ & _ & -> & Hw). cbn [lf_world].
      destruct half; [|by subst w']. destruct Hw as (j & id & B & f & k & _ & ->). eapply fixed_shape; [exact IH|]. apply half_shape.
Qed.
Theorem C58_types bs s t : livedb bs born = Some s ->
  tells (lf_world s) (HasRegistered t) = Ret (OBool true) <-> t ∈ types_of (exclusivesb bs born).
Proof.
  intros H. rewrite <- (fx_reg _ _ (broken_fixed bs s H)). unfold tells. cbn. unfold has_registered. split.
  - intros [= K]. by apply bool_decide_eq_true in K.
  - intros K. by rewrite bool_decide_true.
Qed.
Theorem C58_resources bs s r : livedb bs born = Some s ->
  match res_of (exclusivesb bs born) r with
  | Some _ => exists v, tells (lf_world s) (ReadRes r) = Ret (OVal (Some v))
  | None => tells (lf_world s) (ReadRes r) = Ret (OVal None)
  end.
Proof.
  intros H. pose proof (fx_res _ _ (broken_fixed bs s H) r) as K. unfold tells. cbn [step]. rewrite fmapM_fst. unfold resource_read. rewrite bind_get.
  destruct (w_res (lf_world s) !! r) as [x|], (res_of _ r) as [y|]; try done. injection K as K. rewrite K, Nat.eqb_refl. by exists (rv_val x).
Qed.
End breaks.

(** ** Concrete cases *)
Section check.
Context {V : Type}.
Definition mayxb (s : ModelLife.life V) (b : baction V) : bool := match b with BAct a => mayb s a | _ => true end.
Fixpoint orderlyxb (bs : list (baction V)) (s : ModelLife.life V) : bool :=
  match bs with
  | [] => true
  | b :: bs' => mayxb s b && match act1b b s with Some s' => orderlyxb bs' s' | None => true end
  end.
Lemma orderlyxb_ok (bs : list (baction V)) : orderlyxb bs born = true -> Forall plain_client (programs bs) -> orderlyx bs.
Proof.
  intros H Hp pre b post s ->. revert H Hp. generalize (ModelLife.born (V := V)) as s0. induction pre as [|b' pre IH]; intros s0 H Hp Hl.
  - injection Hl as <-. cbn [app orderlyxb] in H. apply andb_true_iff in H as [H _].
    destruct b as [a|half i h e cl]; cbn [mayx mayxb] in *; [|by apply Forall_cons in Hp as [? _]].
    apply mayb_ok; [done|]. intros c ->. cbn in Hp. by apply Forall_cons in Hp as [? _].
  - cbn [app orderlyxb livedb] in *. apply andb_true_iff in H as [_ H]. destruct (act1b b' s0) as [s1|]; [|done]. apply (IH s1); [done| |done].
    destruct b' as [[]|]; cbn [programs] in Hp; try done; by apply Forall_cons in Hp as [_ ?].
Qed.
End check.

(** Two groups own types 1 and 2, and look at 1 and 3.  A thread removes entity
    1; dropping its component of type 1 panics when the first group is being
    worked on, the second removal not yet made: the guards of both storages
    and of both groups are dropped, and the thread goes on by making a new
    entity. *)
Definition bk_before : list (baction nat) :=
  map BAct [Do (Register 1); Do (Register 2); Do (Register 3); Do (MakeGroup KFull 1 2); Do (MakeGroup KNon 1 3); Do CreateEntity;
    Do (Attach 1 1 11); Do (Attach 2 1 12); Do (Attach 3 1 13); Enter (Call (RemoveEntity 1 [1; 3; 2]) (fun _ => Done))] ++
  replicate 31 (BAct (Move 0)).
Definition bk_guards : list (lock * bool) := [(LStore 2, true); (LStore 1, true); (LGroup 1, true); (LGroup 0, true)].
Definition bk_break : baction nat := Break true 0 bk_guards [] (Call CreateEntity (fun _ => Done)).
Definition bk_life : list (baction nat) := bk_before ++ bk_break :: replicate 10 (BAct (Move 0)).
Definition bk_at (bs : list (baction nat)) : ModelLife.life nat := default born (livedb bs born).
Lemma bk_at_ok bs : match livedb bs (born (V := nat)) with Some _ => true | None => false end = true -> livedb bs born = Some (bk_at bs).
Proof. unfold bk_at. by destruct (livedb bs born). Qed.
Lemma bk_at_step bs b : match livedb (bs ++ [b]) (born (V := nat)) with Some _ => true | None => false end = true -> act1b b (bk_at bs) = Some (bk_at (bs ++ [b])).
Proof.
  intros H. apply bk_at_ok in H. pose proof H as H'. apply livedb_snoc in H' as (s1 & H1 & H'). rewrite <- H'. unfold bk_at. by rewrite H1.
Qed.
Lemma bk_orderly : orderlyx bk_life.
Proof.
  apply orderlyxb_ok; [vm_compute; reflexivity|]. change (programs bk_life) with [Call (V := nat) (RemoveEntity 1 [1; 3; 2]) (fun _ => Done); Call CreateEntity (fun _ => Done)].
  by repeat constructor.
Qed.
(** The component of type 1 is gone, those of types 2 and 3 are there, the
    entity exists; the user is over and what comes next is unharmed. *)
Example C58_case : orderlyx bk_life /\ livedb bk_life born = Some (bk_at bk_life) /\
  tells (lf_world (bk_at bk_before)) (ReadComp 1 1) = Ret (OVal (Some 11)) /\
  forallb over (lf_users (bk_at bk_life)) = true /\
  tells (lf_world (bk_at bk_life)) (ReadComp 1 1) = Ret (OVal None) /\
  tells (lf_world (bk_at bk_life)) (ReadComp 2 1) = Ret (OVal (Some 12)) /\
  tells (lf_world (bk_at bk_life)) (Query (Q2 (QRef false 2) (QRef false 3))) = Ret (OItems [(1, V2 (VLeaf 12) (VLeaf 13))]) /\
  tells (lf_world (bk_at bk_life)) (Exist 1) = Ret (OBool true) /\
  tells (lf_world (bk_at bk_life)) CreateEntity = Ret (OId 3).
Proof. split; [exact bk_orderly|]. split; [apply bk_at_ok; vm_compute; reflexivity|]. repeat split; vm_compute; reflexivity. Qed.
(** For group queries the property is false: the second group still lists the
    entity, whose component of type 1 is gone, so iterating over it is
    undefined behaviour; removing the entity again does not help. *)
Theorem C58_group_refuted :
  livedb bk_life born = Some (bk_at bk_life) /\
  tells (lf_world (bk_at bk_before)) (Query (QGroup KNon false false 1 3)) = Ret (OItems [(1, V2 (VLeaf 11) (VLeaf 13))]) /\
  tells (lf_world (bk_at bk_life)) (Query (QGroup KNon false false 1 3)) = UB /\
  let again := bk_life ++ [BAct (Do (RemoveEntity 1 [1; 3; 2]))] in
  livedb again born = Some (bk_at again) /\ tells (lf_world (bk_at bk_life)) (RemoveEntity 1 [1; 3; 2]) = Ret OUnit /\
  tells (lf_world (bk_at again)) (Query (QGroup KNon false false 1 3)) = UB.
Proof.
  split; [apply bk_at_ok; vm_compute; reflexivity|]. split; [vm_compute; reflexivity|]. split; [vm_compute; reflexivity|].
  split; [apply bk_at_ok; vm_compute; reflexivity|]. split; vm_compute; reflexivity.
Qed.
(** C58_values, C58_released: the moment of the panic. *)
Example C58_break_case : let s := bk_at bk_before in let s1 := bk_at (bk_before ++ [bk_break]) in
  orderlyx (bk_before ++ [bk_break]) /\ livedb bk_before born = Some s /\ act1b bk_break s = Some s1 /\
  SpecConc.shows (lf_world s) 1 1 = Some 11 /\ SpecConc.shows (lf_world s1) 1 1 = None /\ did 0 (conf_of s) = Some (BKill 0 1) /\
  Forall (fun b => leaves 0 b = true) (replicate 4 (BAct (V := nat) (Move 0))) /\ exists s2, livedb (replicate 4 (BAct (Move 0))) s1 = Some s2.
Proof.
  assert (bk_life = (bk_before ++ [bk_break]) ++ replicate 10 (BAct (Move 0))) as El by reflexivity.
  split. { intros pre b post s E. apply (bk_orderly pre b (post ++ replicate 10 (BAct (Move 0))) s). rewrite El, E, <- app_assoc. done. }
  split; [apply bk_at_ok; vm_compute; reflexivity|].
  split; [apply bk_at_step; vm_compute; reflexivity|].
  split; [vm_compute; reflexivity|]. split; [vm_compute; reflexivity|]. split; [vm_compute; reflexivity|].
  split; [repeat constructor|].
  destruct (livedb (replicate 4 (BAct (Move 0))) (bk_at (bk_before ++ [bk_break]))) as [s2|] eqn:E; [by exists s2|].
  exfalso. assert (match livedb (replicate 4 (BAct (Move 0))) (bk_at (bk_before ++ [bk_break])) with Some _ => true | None => false end = true) as H by (vm_compute; reflexivity).
  rewrite E in H. discriminate H.
Qed.
(** C58_turn: two threads; one is broken off while it waits for the other's
    lock, keeping an entity handle it had. *)
Definition bk_turn0 : list (baction nat) := map BAct [Do (Register 1); Do CreateEntity; Do CreateEntity].
Definition bk_keeper : client nat := GetEntity 1 (fun r => match r with Ret true => HAttach 0 1 5 (fun _ => Done) | _ => Done end).
Definition bk_turn : list (baction nat) :=
  [BAct (Enter (GetStore 1 true (fun b => if b then DropObj 0 Done else Done))); BAct (Enter bk_keeper)] ++
  map (fun i => BAct (Move i)) [0; 0; 1; 1; 1] ++ [Break false 1 [] [JEntity 1] (HAttach 0 1 6 (fun _ => Done))].
Example C58_turn_case : let s0 := bk_at bk_turn0 in
  livedb bk_turn0 born = Some s0 /\ lf_users s0 = [] /\ groups_in_order id (lf_world s0) /\
  Forall (in_turn id false (lf_world s0)) bk_turn /\
  match livedb bk_turn s0 with
  | Some s => forallb over (lf_users s) = false /\ map th_holds (lf_users s) = [[(LStore 1, true)]; [(LMan, false)]]
  | None => False
  end.
Proof.
  split; [apply bk_at_ok; vm_compute; reflexivity|]. split; [vm_compute; reflexivity|]. split.
  { intros i k a b H. exfalso. revert H. assert (w_groups (lf_world (bk_at bk_turn0)) = []) as E by (vm_compute; reflexivity).
    unfold group_head. rewrite E. by destruct i. }
  split; [|vm_compute; split; reflexivity].
  unfold bk_turn. repeat (apply List.Forall_cons || apply List.Forall_nil); try exact I; cbn [in_turn].
  - split; [done|]. by intros [].
  - split; [done|]. intros [[]| | |]; cbn; try done.
  - exists (Some true). split; [by exists (JEntity 1)|]. cbn. done.
Qed.

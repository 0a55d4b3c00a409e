(** Whole clients and runs. *)
From stdpp Require Import prelude list gmap.
From Verif Require Import Base Api ModelSparse ModelEntity ModelGroup ModelWorld ModelQuery ModelStep ModelConc SpecConc
  Spec History SpecApart ProofSparse ProofGroup ProofWorld ProofWf ProofConc ProofConc2 ProofConc3 ProofConc4 ProofConc5 ProofConc6 ProofConc7 ProofConc8 ProofConc10
  ProofApart ProofApart2 ProofApart3 ProofSafe ProofSafe2.

Section compile.
Context {V : Type}.
Implicit Types (w u : world V) (h hs mine : list (lock * bool)).
Variables (w0 : world V) (I : world V -> Prop).
Hypothesis (HI : forall w, I w -> same_shape w0 w /\ good w).
Hypothesis (HF : forall w i a b g, I w -> group_head i w0 = Some (KFull, a, b) -> w_groups w !! i = Some g -> both_in a b (g_len g) w).
Hypothesis (HP : forall w i a b g, I w -> group_head i w0 = Some (KPart, a, b) -> w_groups w !! i = Some g -> within a (g_len g) w /\ within b 0 w).
Notation sf := (sf I).
Notation sft := (sft I).

Lemma sf_query h0 u q : q_own q = true ->
  sf h0 u [] u (p_call (Query q)) (fun _ m u' => m = [] /\ near h0 u u').
Proof.
  intros Hq. cbn [p_call]. apply sf_bind, (sf_open w0 I HI HF HP); [done|apply near_refl|]. intros J hs u1 N1 (K & HK & Ku & Hh). cbn [fst snd].
  apply sf_bind, sf_ask. intros u2 A2 I2. apply agree_near in A2.
  assert (near h0 u u2) as N2. { eapply near_trans; [exact N1|]. by eapply near_mine. }
  assert (K u2) as K2. { eapply Hh; [|exact Ku]. eapply near_sub; [|exact A2]. intros y Hy. rewrite !elem_of_app. by left; left. }
  pose proof (collectk_noub (S (qi_fuel J u2 (qi_init J))) u2 J K (qi_init J) (proj2 (HI _ I2)) K2 HK) as U.
  destruct (collect _ u2 J _) as [l| | |]; try done. eapply sf_rels; [by rewrite app_nil_r, app_nil_r|]. by apply sf_ret.
Qed.
Lemma sf_query_mut h0 u q f : q_own q = true ->
  sf h0 u [] u (p_call (QueryMut q f)) (fun _ m u' => m = [] /\ near h0 u u').
Proof.
  intros Hq. cbn [p_call]. apply sf_bind, (sf_open w0 I HI HF HP); [done|apply near_refl|]. intros J hs u1 N1 (K & HK & Ku & Hh). cbn [fst snd].
  apply sf_bind. intros u2 A2 I2 _. apply agree_near in A2.
  assert (near h0 u u2) as N2. { eapply near_trans; [exact N1|]. by eapply near_mine. }
  assert (K u2) as K2. { eapply Hh; [|exact Ku]. eapply near_sub; [|exact A2]. intros y Hy. rewrite !elem_of_app. by left; left. }
  pose proof (drivek_noub hs (S (qi_fuel J u2 (qi_init J))) J f (qi_init J) K u2 (proj2 (HI _ I2)) K2 HK Hh) as U.
  pose proof (rewritten_drive (S (qi_fuel J u2 (qi_init J))) J f (qi_init J) u2) as Rw.
  destruct (drive _ J f _ u2) as [[l| | |] u3]; cbn [fst snd] in *; try done.
  - exists (hs ++ []). split; [done|]. eapply sf_rels; [done|]. apply sf_ret. split; [done|]. eapply near_trans; [exact N2|]. by apply near_rewritten.
  - eapply near_trans; [exact N2|]. by apply near_rewritten.
Qed.
Lemma sf_call h0 u o : op_own o = true -> sf h0 u [] u (p_call o) (fun _ m u' => m = [] /\ near h0 u u').
Proof.
  intros Ho. assert (plain_op o \/ (exists q, o = Query q) \/ exists q f, o = QueryMut q f) as [Hp|[[q ->]|(q & f & ->)]].
  { destruct o; try (by left); right; [left|right]; eauto. }
  - apply (wp_sf0 w0 I HI). apply wp_call; [|done]. by apply any_op.
  - by apply sf_query.
  - by apply sf_query_mut.
Qed.

Definition obj_okk u (ob : obj V) : Prop := match ob with JIter J _ hs => iterk hs u J | _ => True end.
Lemma objs_near e u u' : near (all_holds e) u u' -> Forall (obj_okk u) e -> Forall (obj_okk u') e.
Proof.
  intros Hn He. apply Forall_lookup. intros j ob Hj. pose proof (proj1 (Forall_lookup _ _) He j ob Hj) as Ho. destruct ob as [| | | |J st hs]; try done.
  eapply iterk_near; [|exact Ho]. eapply near_sub; [|exact Hn]. intros y Hy. rewrite (all_delete _ _ _ Hj). apply elem_of_app. by left.
Qed.
Lemma sft_stop e u : sft (all_holds (V := V) e) u (rels (all_holds e) (PRet tt)).
Proof. eapply sf_rels; [by rewrite app_nil_r|]. by apply sf_ret. Qed.
Lemma sft_catch mine u {A} (p : prog V A) (k : outcome A -> list (lock * bool) -> prog V unit) (Q : A -> list (lock * bool) -> world V -> Prop) :
  sf mine u [] u p Q -> (forall a m m' u', Q a m u' -> m' ≡ₚ m -> sft (m' ++ mine) u' (k (Ret a) m')) ->
  (forall u', near mine u u' -> sft mine u' (k Panic [])) -> sft mine u (catch [] p k).
Proof. intros. by eapply (sf_catch I mine u []). Qed.
Lemma sft_perm mine mine' u p : mine ≡ₚ mine' -> sft mine u p -> sft mine' u p.
Proof. apply sf_perm. Qed.

Lemma sf_compile c : forall e u, Forall (obj_okk u) e -> client_own c -> sft (all_holds e) u (compile e c).
Proof.
  induction c as [|o k IH|id k IH|k IH|n k IH|j t v k IH|j t k IH|j t vs k IH|t x k IH|t id x k IH|r x k IH|j o k IH|q k IH|j c k IH|j k IH];
    intros e u He Hc; cbn [compile]; cbn [client_own] in Hc.
  - apply sft_stop.
  - destruct Hc as [Ho Hk]. eapply sft_catch; [by apply sf_call|..].
    + intros a m m' u' [-> Hn] ->%Permutation_nil_r. apply IH; [by eapply objs_near|done].
    + intros u' Hn. apply IH; [by eapply objs_near|done].
  - eapply sft_catch.
    + apply (wp_sf0 w0 I HI) with (Q := fun b m => m = if (b : bool) then [(LMan, false)] else []). by apply wp_entity.
    + intros [|] m m' u' [-> Hn] Hm; (eapply sft_perm; [by rewrite Hm|]).
      * apply (IH (Ret true) (JEntity id :: e)); [|done]. constructor; [done|]. by eapply objs_near.
      * apply (IH (Ret false) e); [by eapply objs_near|done].
    + intros u' Hn. apply IH; [by eapply objs_near|done].
  - eapply sft_catch.
    + apply (wp_sf0 w0 I HI) with (Q := fun _ m => m = [(LMan, false)]). by apply wp_new_entity.
    + intros id m m' u' [-> Hn] Hm. eapply sft_perm; [by rewrite Hm|]. apply (IH (Ret id) (JEntity id :: e)); [|done]. constructor; [done|]. by eapply objs_near.
    + intros u' Hn. apply IH; [by eapply objs_near|done].
  - eapply sft_catch.
    + apply (wp_sf0 w0 I HI) with (Q := fun _ m => m = [(LMan, false)]). by apply wp_new_entities.
    + intros [lo hi] m m' u' [-> Hn] Hm. eapply sft_perm; [by rewrite Hm|]. apply (IH (Ret (lo, hi)) (JEntities lo hi :: e)); [|done]. constructor; [done|]. by eapply objs_near.
    + intros u' Hn. apply IH; [by eapply objs_near|done].
  - destruct (e !! j) as [[id| | | |]|] eqn:Ej; try apply sft_stop. eapply sft_catch.
    + apply (wp_sf0 w0 I HI) with (Q := fun _ m => m = []). by apply wp_handle_attach.
    + intros a m m' u' [-> Hn] ->%Permutation_nil_r. apply IH; [by eapply objs_near|done].
    + intros u' Hn. apply (sf_rels _ _ _ _ _ [(LMan, false)] _ (all_holds (delete j e))); [by apply (all_delete _ _ _ Ej)|].
      apply IH; [|done]. apply Forall_delete. by eapply objs_near.
  - destruct (e !! j) as [[id| | | |]|] eqn:Ej; try apply sft_stop. eapply sft_catch.
    + apply (wp_sf0 w0 I HI) with (Q := fun _ m => m = []). by apply wp_handle_detach.
    + intros a m m' u' [-> Hn] ->%Permutation_nil_r. apply IH; [by eapply objs_near|done].
    + intros u' Hn. apply IH; [by eapply objs_near|done].
  - destruct (e !! j) as [[|lo hi| | |]|] eqn:Ej; try apply sft_stop. eapply sft_catch.
    + apply (wp_sf0 w0 I HI) with (Q := fun _ m => m = []). by apply wp_batch.
    + intros a m m' u' [-> Hn] ->%Permutation_nil_r. apply IH; [by eapply objs_near|done].
    + intros u' Hn. apply (sf_rels _ _ _ _ _ [(LMan, false)] _ (all_holds (delete j e))); [by apply (all_delete _ _ _ Ej)|].
      apply IH; [|done]. apply Forall_delete. by eapply objs_near.
  - intros u1 A1 I1 _. rewrite app_nil_r in A1. apply near_agree in A1. cbn [fst snd]. pose proof (objs_near _ _ _ A1 He) as He1. apply (sft_ub I u1).
    destruct (has_registered t u1); [|by apply (IH false e)]. intros _ u2 A2 I2. rewrite app_nil_r in A2. apply near_agree in A2. apply (sft_ub I u2).
    apply (IH true (JStore t x :: e)); [|done]. constructor; [done|]. by eapply objs_near.
  - intros u1 A1 I1 _. rewrite app_nil_r in A1. apply near_agree in A1. cbn [fst snd]. pose proof (objs_near _ _ _ A1 He) as He1. apply (sft_ub I u1).
    destruct (has_registered t u1); [|by apply (IH false e)]. intros _ u2 A2 I2. rewrite app_nil_r in A2. apply near_agree in A2. apply (sft_ub I u2).
    pose proof (objs_near _ _ _ A2 He1) as He2. intros u3 A3 I3 _. cbn [fst snd]. rewrite app_nil_r in A3. apply near_agree in A3.
    assert (Forall (obj_okk u3) e) as He3. { eapply objs_near; [|exact He2]. eapply near_sub; [|exact A3]. intros y Hy. by right. }
    apply (sft_ub I u3). destruct (storage_has u3 id t).
    + apply (IH true (JStore t x :: e)); [|done]. by constructor.
    + split; [left|]. rewrite drop_hold_head. apply (sft_ub I u3). by apply (IH false e).
  - intros u1 A1 I1 _. rewrite app_nil_r in A1. apply near_agree in A1. cbn [fst snd]. pose proof (objs_near _ _ _ A1 He) as He1. apply (sft_ub I u1).
    destruct (has_res r u1); [|by apply (IH false e)]. intros _ u2 A2 I2. rewrite app_nil_r in A2. apply near_agree in A2. apply (sft_ub I u2).
    apply (IH true (JRes r x :: e)); [|done]. constructor; [done|]. by eapply objs_near.
  - destruct (e !! j) as [ob|] eqn:Ej; [|apply sft_stop]. destruct (through ob o) eqn:Et; [|apply sft_stop].
    apply through_guard in Et as [Hg Ht].
    eapply (sft_catch _ _ _ _ (fun _ m u' => m = [] /\ near (all_holds e) u u')).
    + intros u1 A1 I1 _. destruct (HI u1 I1) as [Sh G]. apply near_agree in A1. change ([] ++ all_holds e) with (all_holds e) in A1.
      pose proof (good_step u1 o G (guarded_tame o u1 Hg)) as U.
      assert (near (all_holds e) u1 (step o u1).2) as N1.
      { assert (moves (use_label o) u1 (step o u1).2) as Hm.
        { assert (exists h, piece w0 h (use_label o) (step o)) as [h [_ Hm]]; [|by apply Hm].
          exists (obj_holds ob). destruct Ht as [(t & x & Hx & Hr & ->)|[(t & Hx & Hr & ->)|[(r & x & Hx & ->)|(r & v & Hx & ->)]]].
          - by eapply piece_read_op.
          - by eapply piece_write_op.
          - by eapply piece_read_res.
          - by eapply piece_write_res. }
        apply near_all. assert (rewritten u1 (step o u1).2) as Rw; [|by apply rewritten_places].
        destruct Ht as [(t & x & Hx & Hr & E)|[(t & Hx & Hr & E)|[(r & x & Hx & ->)|(r & v & Hx & ->)]]].
        - rewrite E in Hm. simpl in Hm. rewrite Hm. apply rewritten_refl.
        - rewrite E in Hm. by destruct Hm.
        - cbn [use_label moves effect] in Hm. rewrite Hm. apply rewritten_refl.
        - by destruct Hm. }
      destruct (step o u1) as [[a| | |] u2]; cbn [fst snd] in *.
      * exists []. split; [done|]. split; [done|]. by eapply near_trans.
      * by eapply near_trans.
      * by destruct U.
      * done.
    + intros a m m' u' [-> Hn] ->%Permutation_nil_r. apply IH; [by eapply objs_near|done].
    + intros u' Hn. apply IH; [by eapply objs_near|done].
  - destruct Hc as [Hq Hk]. eapply (sft_catch _ _ _ _ (fun x m u' => m = x.2 /\ iterk x.2 u' x.1 /\ near (all_holds e) u u')).
    + apply (sf_open w0 I HI HF HP); [done|apply near_refl|]. intros J hs u' Hn HK. split; [by rewrite app_nil_r|]. done.
    + intros [J hs] m m' u' (-> & HK & Hn) Hm. cbn [fst snd] in *. eapply sft_perm; [by rewrite Hm|].
      apply (IH (Ret tt) (JIter J (qi_init J) hs :: e)); [|done]. constructor; [done|]. by eapply objs_near.
    + intros u' Hn. apply IH; [by eapply objs_near|done].
  - destruct (e !! j) as [[| | | |J st hs]|] eqn:Ej; try apply sft_stop.
    intros u1 A1 I1 _. rewrite app_nil_r in A1. apply near_agree in A1. pose proof (objs_near _ _ _ A1 He) as He1.
    destruct (HI u1 I1) as [Sh G]. destruct (proj1 (Forall_lookup _ _) He1 j _ Ej) as (K & HK & Ku & Hh).
    pose proof (icallk_noub J st hs c u1 K G Ku HK) as U.
    assert (rewritten u1 (icall_act J st hs c u1).2) as Rw.
    { destruct c as [| |id| |g]; cbn [own_writes].
      1-4: assert ((icall_act J st hs CNext u1).2 = u1 /\ (icall_act J st hs CNextId u1).2 = u1 /\
             (forall id, (icall_act J st hs (CFromId id) u1).2 = u1) /\ (icall_act J st hs CHint u1).2 = u1) as (E1 & E2 & E3 & E4) by (apply icall_same).
      - rewrite E1. apply rewritten_refl.
      - rewrite E2. apply rewritten_refl.
      - rewrite E3. apply rewritten_refl.
      - rewrite E4. apply rewritten_refl.
      - apply rewritten_values. }
    unfold icall_act in U, Rw. destruct (run_call J (own_writes hs c) (u1, st)) as [o [u2 st']]. cbn [fst snd] in *.
    assert (forall o, sft (all_holds e) u2 (compile (<[j := JIter J st' hs]> e) (k o))) as Hgo.
    { intros o'. assert (all_holds (<[j := JIter J st' hs]> e) = all_holds e) as E.
      { unfold all_holds. f_equal. transitivity (<[j := hs]> (map obj_holds e)); [apply (list_fmap_insert obj_holds e j (JIter J st' hs))|].
        apply list_insert_id. rewrite list_lookup_fmap, Ej. done. }
      pose proof (IH o' (<[j := JIter J st' hs]> e) u2) as H. rewrite E in H. apply H; [|apply Hc].
      apply Forall_insert; [eapply objs_near; [|exact He1]; by apply near_rewritten|]. exists K. split; [done|]. split; [|done]. eapply Hh; [|exact Ku]. by apply near_rewritten. }
    specialize (U o st' eq_refl). destruct o as [a| | |]; [eapply sft_ub, Hgo|eapply sft_ub, Hgo|by destruct U|done].
  - destruct (e !! j) as [ob|] eqn:Ej; [|apply sft_stop].
    eapply sf_rels; [by apply all_delete|]. apply IH; [|done]. by apply Forall_delete.
Qed.
End compile.

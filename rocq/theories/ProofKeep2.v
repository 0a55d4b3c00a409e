(** Iterators threads keep look only at what they have locked. *)
From stdpp Require Import prelude list gmap.
From Verif Require Import Base Api ModelSparse ModelEntity ModelGroup ModelWorld ModelQuery ModelStep ModelConc SpecConc SpecKeep
  Spec ProofSparse ProofWorld ProofWf ProofTerm ProofConc ProofConc2 ProofConc3
  ProofConc4 ProofConc5 ProofConc6 ProofConc7 ProofConc8 ProofConc9 ProofConc10 ProofConc11 ProofKeep.

Section iters.
Context {V : Type} (w0 : world V).
Local Notation hold := (lock * bool)%type.
Implicit Types (w : world V) (e : list (obj V)) (cl : client V) (pl : place (V := V)).

Definition iok (ob : obj V) : Prop := match ob with JIter J _ hs => qlocal hs J | _ => True end.
Fixpoint rets {A} (p : prog V A) (Q : A -> Prop) : Prop :=
  match p with
  | PRet a => Q a
  | PPanic | PUB | PHang => True
  | PAcq _ _ k | PRel _ _ k => rets k Q
  | PAct _ f k => forall w, same_shape w0 w -> match (f w).1 with Ret b => rets (k b) Q | _ => True end
  end.
Lemma rets_any {A} (p : prog V A) (Q : A -> Prop) : (forall a, Q a) -> rets p Q.
Proof.
  intros HQ. induction p as [a| | | |l x p IH|l x p IH|C lab f kk IH]; cbn [rets]; auto.
  intros w _. destruct ((f w).1); auto.
Qed.
Lemma wp_rets {A} pn h0 mine (p : prog V A) (Q : A -> list hold -> Prop) (Q' : A -> Prop) : wp w0 nolt False pn h0 mine p Q -> (forall a m, Q a m -> Q' a) -> rets p Q'.
Proof.
  intros H HQ. revert mine H. induction p as [a| | | |l x p IH|l x p IH|C lab f kk IH]; intros mine; cbn [wp rets]; try done.
  - intros (m & _ & H). by eapply HQ.
  - intros [_ H]. by eapply IH.
  - intros [_ H]. by eapply IH.
  - intros [_ H] w Hw. specialize (H w (conj Hw (fun F : False => False_ind _ F))). destruct ((f w).1); try done. by eapply IH.
Qed.
Definition fine pl : Prop :=
  match pl with
  | InCall e mine q k => Forall iok e /\ rets q (fun a => Forall iok (k (Ret a)).1.2) /\ Forall iok (k Panic).1.2
  | Getting _ _ ob e _ => Forall iok e /\ iok ob
  | pl => Forall iok (keeping pl)
  end.
Lemma fine_keeps pl : fine pl -> Forall iok (keeping pl).
Proof. destruct pl; cbn [fine keeping]; try done; by intros [? ?]. Qed.
Lemma iok_delete e j : Forall iok e -> Forall iok (delete j e).
Proof. rewrite !Forall_forall. intros H x Hx%in_delete. by apply H. Qed.
Lemma fine_begin e cl : Forall iok e -> fine (begin e cl).
Proof.
  revert e. induction cl as [|o k IH|i k IH|k IH|n k IH|j u v k IH|j u k IH|j u vs k IH|u x k IH|u i x k IH|r x k IH|j o k IH|q k IH|j c k IH|j k IH]; intros e He; cbn [begin];
    try (by cbn [fine keeping]).
  - assert (fine (InCall e [] (p_call o) (fun r => ([], e, k r)))) as H by (split; [done|]; split; [by apply rets_any|done]).
    revert H. destruct (p_call o); auto.
  - split; [done|]. split; [|done]. apply rets_any. intros []; cbn [fst snd]; [by constructor|done].
  - split; [done|]. split; [|done]. apply rets_any. intros a. by constructor.
  - split; [done|]. split; [|done]. apply rets_any. intros [lo hi]. by constructor.
  - destruct (e !! j) as [[]|]; try (by cbn [fine keeping]). split; [done|]. split; [by apply rets_any|by apply iok_delete].
  - destruct (e !! j) as [[]|]; try (by cbn [fine keeping]). split; [done|]. split; [by apply rets_any|done].
  - destruct (e !! j) as [[id|lo hi|?|?|?]|]; try (by cbn [fine keeping]).
    assert (fine (InCall e [] (p_batch lo hi u vs) (fun r => match r with Ret _ => ([], e, k r) | _ => ([(LMan, false)], delete j e, k r) end))) as H.
    { split; [done|]. split; [by apply rets_any|by apply iok_delete]. }
    revert H. destruct (p_batch lo hi u vs); try done. intros _. cbn [fine keeping]. by apply iok_delete.
  - destruct (e !! j) as [ob|]; [|by cbn [fine keeping]]. destruct (through ob o); [|by cbn [fine keeping]]. split; [done|]. split; [by apply rets_any|done].
  - split; [done|]. split; [|done].
    eapply (wp_rets _ (all_holds e) [] (p_open q) (fun x m => iok (JIter x.1 (qi_init x.1) x.2))).
    + apply (wp_open w0 nolt False q [] (all_holds e)); [apply any_q|done|]. intros J HJ. apply HJ.
    + intros x _ Hx. cbn [fst snd]. by constructor.
  - destruct (e !! j) as [[]|]; by cbn [fine keeping].
  - destruct (e !! j) as [ob|]; [|by cbn [fine keeping]]. destruct (obj_holds ob); [by apply IH, iok_delete|cbn [fine keeping]; by apply iok_delete].
Qed.
Lemma fine_drop hs e cl : Forall iok e -> fine (drop_then hs e cl).
Proof. destruct hs; [apply fine_begin|done]. Qed.
Lemma fine_resume {A} e mine (p : prog V A) k : Forall iok e -> rets p (fun a => Forall iok (k (Ret a)).1.2) -> Forall iok (k Panic).1.2 -> fine (resume e mine p k).
Proof.
  intros He Hr Hp. destruct p as [a| | | |l x p|l x p|C lab f kk]; cbn [resume]; try (by cbn [fine keeping]).
  - cbn [rets] in Hr. destruct (k (Ret a)) as [[hs e'] cl]. by apply fine_drop.
  - destruct (k Panic) as [[hs e'] cl]. by apply fine_drop.
Qed.
Lemma fine_go w pl : same_shape w0 w -> fine pl -> fine (go_on w pl).
Proof.
  intros Hw Hp. destruct pl as [A e mine q k|hs e cl|e cl|l x ob e cl|t id x e k|t id x e k|e]; cbn [go_on]; try done.
  - destruct Hp as (He & Hr & Hk). destruct q as [a| | | |l x q|l x q|B lab f q]; try done; try (by apply fine_resume).
    specialize (Hr w Hw). destruct ((f w).1); [by apply fine_resume| |by cbn [fine keeping]|by cbn [fine keeping]]. by apply (fine_resume e mine PPanic k).
  - destruct hs; [done|]. by apply fine_drop.
  - cbn [fine keeping] in Hp. destruct cl as [|o k|i k|k|n k|j u v k|j u k|j u vs k|u x k|u i x k|r x k|j o k|q k|j c k|j k]; try done.
    + destruct (has_registered u w); [done|by apply fine_begin].
    + destruct (has_registered u w); [done|by apply fine_begin].
    + destruct (has_res r w); [done|by apply fine_begin].
    + destruct (e !! j) as [[id|lo hi|?|?|J st hs]|] eqn:Ej; try done.
      assert (forall st' o, fine (begin (<[j := JIter J st' hs]> e) (k o))) as Hgo.
      { intros st' o. apply fine_begin. apply Forall_insert; [done|]. rewrite Forall_lookup in Hp. by apply (Hp j _ Ej). }
      destruct (run_call J (own_writes hs c) (w, st)) as [[| | |] [w1 st1]]; try done; apply Hgo.
  - destruct Hp as [He Ho]. apply fine_begin. by constructor.
  - destruct (storage_has w id t); [|done]. apply fine_begin. by constructor.
Qed.
End iters.

Section keep.
Context {V : Type}.
Implicit Types (w : world V) (cs : list (client V)) (c : conf V).
Lemma iter_inv w cs sched c i : run sched (start w cs) = Some c -> Forall iok (kept_by i sched w cs).
Proof.
  intros Hr. unfold kept_by, place_of. destruct (cs !! i) as [cl|]; [|constructor]. eapply fine_keeps with (w0 := w).
  revert c Hr. induction sched as [|j sched IH] using rev_ind; intros c Hr.
  - cbn [walk]. by apply fine_begin.
  - rewrite <- run_app in Hr. destruct (run sched (start w cs)) as [c1|] eqn:Hr1; [|done]. cbn [mbind option_bind run] in Hr.
    destruct (cstep j c1) as [c2|] eqn:Ec; [|done]. injection Hr as <-. specialize (IH c1 eq_refl).
    rewrite (walk_snoc i (begin [] cl) sched j _ c1 c2 Hr1 Ec). destruct (decide (j = i)) as [->|]; [|done].
    apply fine_go; [|done]. assert (reaches w cs c1) as HR by (by exists sched). apply reach_any in HR. by apply (ci_shape _ _ _ c1 HR).
Qed.
(** What other threads do does not change what is locked. *)
Lemma others_agree w cs sched c i sched' c' ob : run sched (start w cs) = Some c -> run sched' c = Some c' -> i ∉ sched' ->
  ob ∈ kept_by i sched w cs -> agree (obj_holds ob) (cf_world c) (cf_world c').
Proof.
  intros Hr Hr' Hi Hob. revert c' Hr'. induction sched' as [|j s IH] using rev_ind; intros c' Hr'.
  - injection Hr' as <-. split; [apply shape_refl|intros; apply part_refl].
  - rewrite <- run_app in Hr'. destruct (run s c) as [c1|] eqn:Hr1; [|done]. cbn [mbind option_bind run] in Hr'.
    destruct (cstep j c1) as [c2|] eqn:Ec; [|done]. injection Hr' as <-.
    assert (i ∉ s /\ i <> j) as [His Hij] by (split; [set_solver|intros ->; set_solver]).
    specialize (IH His c1 eq_refl). destruct (cs !! i) as [cl|] eqn:Ei; [|unfold kept_by, place_of in Hob; rewrite Ei in Hob; by apply elem_of_nil in Hob].
    assert (run (sched ++ s) (start w cs) = Some c1) as Hrs by (rewrite <- run_app, Hr; exact Hr1).
    assert (reaches w cs c1) as HR by (by exists (sched ++ s)). apply reach_any in HR.
    destruct (keep_inv w cs (sched ++ s) c1 i cl Hrs Ei) as (th & Hth & Hp & _).
    assert (place_of i (sched ++ s) w cs = place_of i sched w cs) as Epl.
    { unfold place_of. rewrite Ei. clear -Hr Hr1 His. revert c1 Hr1. induction s as [|m s IH] using rev_ind; intros c1 Hr1; [by rewrite app_nil_r|].
      rewrite <- run_app in Hr1. destruct (run s c) as [cm|] eqn:Hm; [|done]. cbn [mbind option_bind run] in Hr1.
      destruct (cstep m cm) as [c2|] eqn:Ec; [|done]. rewrite app_assoc.
      rewrite (walk_snoc i (begin [] cl) (sched ++ s) m (start w cs) cm c2); [|by rewrite <- run_app, Hr|done].
      rewrite decide_False by (intros ->; set_solver). eapply IH; [set_solver|done]. }
    split.
    + eapply shape_trans; [exact (proj1 IH)|].
      assert (reaches w cs c2) as HR2 by (exists (sched ++ s ++ [j]); rewrite <- run_app, Hr; cbn [mbind option_bind]; rewrite <- run_app, Hr1; cbn [mbind option_bind run]; by rewrite Ec).
      apply reach_any in HR2. eapply shape_trans; [apply shape_sym; by apply (ci_shape _ _ _ c1 HR)|by apply (ci_shape _ _ _ c2 HR2)].
    + intros l x Hl. eapply part_trans; [by eapply (proj2 IH)|].
      eapply (step_protect w nolt False j i c1 c2 th l x); [done|by intros ->|done| |done].
      eapply elem_of_submseteq; [|exact (placed_holds _ _ _ _ Hp)]. rewrite Epl. unfold all_holds. apply elem_of_list_In, in_concat.
      exists (obj_holds ob). split; [|by apply elem_of_list_In]. apply in_map. by apply elem_of_list_In.
Qed.
End keep.

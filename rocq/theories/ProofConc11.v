(** Lemmas for PropConc.v. *)
From stdpp Require Import prelude list gmap.
From Verif Require Import Base Api ModelSparse ModelEntity ModelGroup ModelWorld ModelQuery ModelStep ModelConc SpecConc
  Spec History ProofSparse ProofWorld ProofWf ProofTerm ProofConc ProofConc2 ProofConc3 ProofConc4 ProofConc5 ProofConc6 ProofConc7 ProofConc8 ProofConc9 ProofConc10.

Section lemmas.
Context {V : Type}.
Implicit Types (w : world V) (c : conf V) (th : thread V).

Lemma run_app s1 s2 c : run s1 c ≫= run s2 = run (s1 ++ s2) c.
Proof. revert c. induction s1 as [|i s1 IH]; intros c; simpl; [done|]. destruct (cstep i c); simpl; [apply IH|done]. Qed.
Lemma run_snoc s i c cm c' : run s c = Some cm -> cstep i cm = Some c' -> run (s ++ [i]) c = Some c'.
Proof. intros H1 H2. rewrite <- run_app, H1. simpl. by rewrite H2. Qed.
Lemma reaches_later w cs c c' : reaches w cs c -> later c c' -> reaches w cs c'.
Proof. intros [s1 H1] [s2 H2]. exists (s1 ++ s2). rewrite <- run_app, H1. done. Qed.
Lemma reaches_step w cs c i c' : reaches w cs c -> cstep i c = Some c' -> reaches w cs c'.
Proof. intros H1 H2. eapply reaches_later; [exact H1|]. exists [i]. simpl. by rewrite H2. Qed.
Lemma throughout_tl P i s c c1 : cstep i c = Some c1 -> throughout P (i :: s) c -> throughout P s c1.
Proof. intros H HT pre post cm -> Hr. apply (HT (i :: pre) post cm); [done|]. simpl. by rewrite H. Qed.
Lemma throughout_hd P s c : throughout P s c -> P c.
Proof. intros H. by apply (H [] s c). Qed.

Lemma in_others i j c th g : i <> j -> cf_threads c !! j = Some th -> g ∈ th_holds th -> g ∈ holds_of_others i (cf_threads c).
Proof.
  intros Hij Hj Hin. apply elem_of_list_In, in_concat. exists (th_holds th). rewrite <- !elem_of_list_In. split; [|done].
  apply elem_of_list_fmap. exists th. split; [done|]. destruct (decide (j < i)).
  - apply (elem_of_list_lookup_2 _ j). by rewrite lookup_delete_lt.
  - apply (elem_of_list_lookup_2 _ (pred j)). rewrite lookup_delete_ge by lia. by replace (S (pred j)) with j by lia.
Qed.

(** ** Programs that need the manager for writing never end under a handle *)
Fixpoint needs {A} (p : prog V A) : Prop :=
  match p with
  | PRet _ => False
  | PPanic | PUB | PHang => True
  | PAcq l x k => (l = LMan /\ x = true) \/ needs k
  | PRel _ _ k => needs k
  | PAct _ _ k => forall b, needs (k b)
  end.
Lemma needs_bind {A B} (p : prog V A) (k : A -> prog V B) : (forall a, needs (k a)) -> needs (pbind p k).
Proof. intros H. induction p; simpl; auto. Qed.
Lemma needs_bind_l {A B} (p : prog V A) (k : A -> prog V B) : needs p -> needs (pbind p k).
Proof. intros H. induction p; simpl in *; try done; auto. destruct H; auto. Qed.
Lemma needs_acq {A} (k : unit -> prog V A) : needs (pbind (acq LMan true) k).
Proof. simpl. by left. Qed.
Lemma needs_remove id ord : needs (p_remove (V := V) id ord).
Proof.
  unfold p_remove. apply needs_bind; intros b. apply needs_bind; intros _. apply needs_bind; intros n.
  apply needs_bind; intros gs. apply needs_bind; intros _. apply needs_bind; intros ts. apply needs_bind; intros _. apply needs_acq.
Qed.
Lemma needs_no_end w {A} (p : prog V A) : forall h0 mine h lt pl pn Q, (LMan, false) ∈ h0 -> h ≡ₚ mine ++ h0 -> needs p ->
  wp w lt pl pn h0 mine p Q -> (pl -> False) -> forall r a, ends w h p r -> r <> Ret a.
Proof.
  induction p as [a| | | |l x k IH|l x k IH|B lab f k IH]; intros h0 mine h lt pl pn Q Hin HP Hn Hw Hpl r a0 He; cbn [ends needs] in *; try done.
  - by rewrite He.
  - by rewrite He.
  - destruct He as [Hc He']. destruct Hn as [[-> ->]|Hn].
    + exfalso. assert (conflict h LMan true = true); [|congruence]. apply conflict_true. exists false. split; [|done].
      rewrite HP. apply elem_of_app. by right.
    + destruct Hw as [_ Hw]. eapply (IH h0 ((l, x) :: mine)); [done| |done|exact Hw|done|exact He']. by rewrite HP.
  - destruct Hw as [Hl Hw].
    eapply (IH h0 (drop_hold l x mine)); [done| |done|exact Hw|done|exact He].
    rewrite <- drop_hold_app by done. apply drop_hold_equiv; [|done]. rewrite HP. apply elem_of_app. by left.
  - destruct Hw as [_ Hw]. destruct He as (w1 & Hs & He). assert (inv w pl w1) as Hi. { split; [done|]. intros Hp. by destruct (Hpl Hp). }
    specialize (Hw w1 Hi). destruct ((f w1).1) as [b| | |]; try (by rewrite He); [|done].
    eapply (IH b h0 mine); [done|done|apply Hn|exact Hw|done|exact He].
Qed.
End lemmas.

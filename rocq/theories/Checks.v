(** Boolean checks of the hypotheses on histories, used only to exhibit
    concrete cases. *)
From stdpp Require Import prelude list gmap.
From Verif Require Import Base Api Spec History ProofHistory2.

Section checks.
Context {V : Type}.
Implicit Types (h : history V).

Definition ownsb (g : gkind * nat * nat) (t : nat) : bool :=
  match g with
  | (KFull, a, b) => (t =? a) || (t =? b)
  | (KPart, a, b) => t =? a
  | (KNon, _, _) => false
  end.
Lemma ownsb_ok g t : ownsb g t = true <-> owns g t.
Proof. destruct g as [[[] a] b]; simpl; rewrite ?orb_true_iff, ?Nat.eqb_eq; done. Qed.
Definition reordersb h (a b t : nat) : bool :=
  existsb (fun g => ((t =? g.1.2) || (t =? g.2)) && (ownsb g a || ownsb g b)) (groups_of h).
Lemma reordersb_ok h a b t : reordersb h a b t = true <-> reorders h a b t.
Proof.
  unfold reordersb, reorders. rewrite existsb_exists. split.
  - intros ([[k x] y] & Hin & E). exists k, x, y. rewrite andb_true_iff, !orb_true_iff, !Nat.eqb_eq, !ownsb_ok in E.
    split; [by apply elem_of_list_In|]. done.
  - intros (k & x & y & Hin & E). exists (k, x, y). split; [by apply elem_of_list_In|].
    rewrite andb_true_iff, !orb_true_iff, !Nat.eqb_eq, !ownsb_ok. done.
Qed.
Definition disturbsb h (a b : nat) (ev : event V) : bool :=
  match ev with
  | (Attach t id _, Ret _) => reordersb h a b t
  | (Detach t id, Ret (OVal (Some _))) => (t =? a) || (t =? b) || reordersb h a b t
  | (RemoveEntity id _, Ret _) => bool_decide (is_Some (value_of h a id)) || bool_decide (is_Some (value_of h b id))
  | (MakeGroup k' a' b', Ret _) => ownsb (k', a', b') a || ownsb (k', a', b') b
  | _ => false
  end.
Lemma disturbsb_ok h a b ev : disturbsb h a b ev = true <-> disturbs h a b ev.
Proof.
  destruct ev as [o r]; destruct o; simpl; try done; destruct r as [r| | |]; try done.
  - rewrite orb_true_iff, !bool_decide_eq_true. done.
  - apply reordersb_ok.
  - destruct r as [| | | | |[v|]| | | | |]; try done. rewrite !orb_true_iff, !Nat.eqb_eq, reordersb_ok. tauto.
  - rewrite orb_true_iff. destruct k; simpl; rewrite ?orb_true_iff, ?Nat.eqb_eq; naive_solver.
Qed.
Fixpoint undisturbedb (a b : nat) (h1 h2 : history V) : bool :=
  match h2 with
  | [] => true
  | ev :: h2' =>
      (negb (bool_decide ((KNon, a, b) ∈ groups_of h1)) || negb (disturbsb h1 a b ev))
      && undisturbedb a b (h1 ++ [ev]) h2'
  end.
Lemma undisturbedb_ok h a b : undisturbedb a b [] h = true -> undisturbed h a b.
Proof.
  intros E h1 ev h2 Eh. assert (forall p h1, h = p ++ h1 ++ ev :: h2 -> undisturbedb a b p (h1 ++ ev :: h2) = true ->
    (KNon, a, b) ∈ groups_of (p ++ h1) -> ~ disturbs (p ++ h1) a b ev) as G.
  { clear. intros p h1. revert p. induction h1 as [|e h1 IH]; intros p E U; simpl in *.
    - rewrite app_nil_r. apply andb_true_iff in U as [U _]. intros Hin D. apply disturbsb_ok in D.
      rewrite D, bool_decide_eq_true_2 in U by done. done.
    - apply andb_true_iff in U as [_ U]. specialize (IH (p ++ [e])). rewrite <- !app_assoc in IH. simpl in IH.
      by apply IH. }
  rewrite Eh in E. by apply (G [] h1).
Qed.

(** no batch attach in the history, then no entity was left out *)
Definition no_batch h : bool := forallb (fun ev => match ev.1 with BatchAttach _ _ _ _ => false | _ => true end) h.
Lemma no_batch_left h k a b id : no_batch h = true -> left_out h k a b id = false.
Proof.
  induction h as [|ev h IH] using rev_ind; [done|]. unfold no_batch. rewrite forallb_app, left_snoc, andb_true_iff.
  intros [H1 H2]. simpl in H2. rewrite andb_true_r in H2. rewrite IH by done.
  destruct ev as [[] []]; simpl in *; try done; by case_match.
Qed.

Definition q_fineb h (q : query) : bool :=
  forallb (fun x => bool_decide (x.1 ∈ types_of h)) (q_refs q) &&
  forallb (fun g => bool_decide (g ∈ groups_of h)) (q_groups q) &&
  negb (clash [] (q_refs q)) &&
  forallb (fun g => match g with (KNon, a, b) => undisturbedb a b [] h | _ => true end) (q_groups q) &&
  (match q_groups q with [] => true | _ => no_batch h end).
Lemma q_fineb_ok h q : q_fineb h q = true ->
  q_known h q /\ ~ q_conflict q /\ q_undisturbed h q /\ q_none_left h q.
Proof.
  unfold q_fineb. rewrite !andb_true_iff, !forallb_forall. intros [[[[H1 H2] H3] H4] H5]. split; [split|split; [|split]].
  - intros t m Hin%elem_of_list_In. apply H1 in Hin. by apply bool_decide_eq_true in Hin.
  - intros g Hin%elem_of_list_In. apply H2 in Hin. by apply bool_decide_eq_true in Hin.
  - apply negb_true_iff in H3. intros C%clash_conflict. congruence.
  - intros a b Hin%elem_of_list_In. apply H4 in Hin. by apply undisturbedb_ok.
  - intros k a b id Hin _ _. destruct (q_groups q); [by apply elem_of_nil in Hin|]. by apply no_batch_left.
Qed.
End checks.

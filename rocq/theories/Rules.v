(** A boolean check of the rules of use, to exhibit concrete histories that
    keep them. *)
From stdpp Require Import prelude list gmap.
From Verif Require Import Base Api Spec.

Section rules.
Context {V : Type}.
Implicit Types aw : aworld V.

Fixpoint apartb (gs : list agroup) (id : nat) : bool :=
  match gs with
  | [] => true
  | g :: gs' =>
      (negb (bool_decide (id ∈ ag_mem g)) ||
       forallb (fun h => negb (bool_decide (id ∈ ag_mem h)) || (negb (ag_owns g (ag_a h)) && negb (ag_owns g (ag_b h)))) gs')
      && apartb gs' id
  end.
Lemma apartb_ok gs id : apartb gs id = true -> apart gs id.
Proof.
  induction gs as [|g0 gs IH]; simpl; [done|]. intros [H1 H2]%andb_true_iff [|i] [|j] g h t Hij Hg Hh Hm1 Hm2 Ho;
    simpl in *; try lia.
  - injection Hg as ->. apply orb_true_iff in H1 as [H1|H1].
    { apply negb_true_iff, bool_decide_eq_false in H1. done. }
    rewrite forallb_forall in H1. specialize (H1 h). apply elem_of_list_lookup_2, elem_of_list_In in Hh.
    specialize (H1 Hh). apply orb_true_iff in H1 as [H1|H1].
    { apply negb_true_iff, bool_decide_eq_false in H1. done. }
    apply andb_true_iff in H1 as [Ha Hb]. apply negb_true_iff in Ha, Hb. unfold ag_types. apply orb_false_iff.
    split; apply Nat.eqb_neq; congruence.
  - eapply (IH H2 i j g h t); eauto. lia.
Qed.

Definition legalb aw (o : op V) : bool :=
  match o with
  | RemoveEntity id ord =>
      (1 <=? id) && negb (bool_decide (last (a_free aw) = Some id))
      && apartb (a_groups aw) id
      && bool_decide (ord = (map_to_list (a_comps aw)).*1)
  | Exist id | Attach _ id _ | Detach _ id | ReadComp _ id | WriteComp _ id _
  | StoreExist _ id | StoreGet _ id | StoreGetMut _ id _ => 1 <=? id
  | BatchAttach lo hi t vs =>
      (1 <=? lo) && ((hi <=? lo) || (hi <=? S (a_next aw))) && forallb (fun id => negb (bool_decide (has aw t id))) (seq lo (hi - lo))
  | MakeGroup k a b =>
      group_refused aw k a b ||
      (bool_decide (registered aw a) && bool_decide (registered aw b)
       && (negb (a =? b) || match k with KNon => true | _ => false end))
  | Query q | QueryMut q _ => q_fresh aw q
  | StoreDataSet _ _ _ => false
  | _ => true
  end.
Lemma legalb_ok aw o : legalb aw o = true -> legal aw o.
Proof.
  destruct o; cbn [legalb legal]; try done; rewrite ?andb_true_iff, ?Nat.leb_le; try done.
  - intros [[[? H1] H3] H2]. apply apartb_ok in H3. apply bool_decide_eq_true in H2. apply negb_true_iff, bool_decide_eq_false in H1. split; [done|]. split; [done|]. split; [done|]. by rewrite H2.
  - intros [[Hlo Hh] Hfr]. split; [done|]. split.
    { intros Hlt. apply orb_true_iff in Hh as [Hh|Hh]; apply Nat.leb_le in Hh; lia. }
    intros id Hid. rewrite forallb_forall in Hfr.
    assert (In id (seq lo (hi - lo))) as Hin by (apply in_seq; lia). apply Hfr in Hin.
    apply negb_true_iff, bool_decide_eq_false in Hin. unfold has in Hin. by apply eq_None_not_Some.
  - intros H. apply orb_true_iff in H as [H|H]; [by left|right]. rewrite !andb_true_iff in H. destruct H as [[Ha Hb] Hn].
    apply bool_decide_eq_true in Ha, Hb. split; [done|]. split; [done|].
    apply orb_true_iff in Hn as [Hn|Hn]; [left|right].
      * apply negb_true_iff, Nat.eqb_neq in Hn. done.
      * by destruct k.
Qed.
Fixpoint legal_allb (ops : list (op V)) aw : bool :=
  match ops with [] => true | o :: ops' => legalb aw o && legal_allb ops' (anext aw o) end.
Lemma legal_allb_ok ops aw : legal_allb ops aw = true -> legal_all ops aw.
Proof.
  revert aw. induction ops as [|o ops IH]; intros aw; simpl; [done|].
  intros H. apply andb_true_iff in H as [H1 H2]. split; [by apply legalb_ok|by apply IH].
Qed.
Definition rulesb (ops : list (op V)) : bool := legal_allb ops a_init.
Lemma rulesb_ok ops : rulesb ops = true -> rules ops.
Proof. apply legal_allb_ok. Qed.
End rules.
Ltac check_rules := apply rulesb_ok; vm_compute; reflexivity.
(** decide a closed decidable goal by computation *)
Ltac by_compute := match goal with
  | |- ~ ?P => apply (bool_decide_eq_false_1 P); vm_compute; reflexivity
  | |- ?P => apply (bool_decide_eq_true_1 P); vm_compute; reflexivity
  end.

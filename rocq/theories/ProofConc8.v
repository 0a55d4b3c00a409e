(** Whole runs. *)
From stdpp Require Import prelude list gmap.
From Verif Require Import Base Api ModelSparse ModelEntity ModelGroup ModelWorld ModelQuery ModelStep ModelConc SpecConc
  Spec History ProofSparse ProofWorld ProofWf ProofTerm ProofConc ProofConc2 ProofConc3 ProofConc4 ProofConc5 ProofConc6 ProofConc7.

(** Two guards on the same lock are both shared. *)
Definition excl (h : list (lock * bool)) : Prop :=
  forall l x y m, h ≡ₚ (l, x) :: (l, y) :: m -> x = false /\ y = false.
Lemma excl_perm h h' : h ≡ₚ h' -> excl h -> excl h'.
Proof. intros HP H l x y m Hm. eapply H. by rewrite HP. Qed.
Lemma excl_tail y h : excl (y :: h) -> excl h.
Proof. intros H l x z m Hm. apply (H l x z (y :: m)). rewrite Hm. by rewrite (Permutation_swap (l, x)), (Permutation_swap (l, z)). Qed.
Lemma excl_nil : excl [].
Proof. intros l x y m H. by apply Permutation_nil_cons in H. Qed.
Lemma excl_cons l x h : excl h -> conflict h l x = false -> excl ((l, x) :: h).
Proof.
  intros H Hc l' y z m Hm.
  assert (forall y, (l, y) ∈ h -> y = false /\ x = false) as Hno.
  { intros u Hu. destruct (u || x) eqn:E; [|by apply orb_false_elim in E].
    assert (conflict h l x = true) by (apply conflict_true; by exists u). congruence. }
  assert ((l, x) ∈ (l', y) :: (l', z) :: m) as Hin by (rewrite <- Hm; left).
  apply elem_of_cons in Hin as [[= -> ->]|Hin].
  - apply Permutation_cons_inv in Hm. destruct (Hno z) as [-> ->]; [rewrite Hm; left|done].
  - apply elem_of_cons in Hin as [[= -> ->]|Hin].
    + rewrite Permutation_swap in Hm. apply Permutation_cons_inv in Hm. destruct (Hno y) as [-> ->]; [rewrite Hm; left|done].
    + apply elem_of_Permutation in Hin as [m' Hm']. apply (H l' y z m'). apply (Permutation_cons_inv (a := (l, x))).
      etrans; [exact Hm|]. rewrite Hm'. rewrite (Permutation_swap (l, x) (l', z)). apply Permutation_swap.
Qed.
(** a write guard and any other guard on the same lock *)
Lemma excl_app h1 h2 l x y : excl (h1 ++ h2) -> (l, x) ∈ h1 -> (l, y) ∈ h2 -> x = false /\ y = false.
Proof.
  intros H [m1 H1]%elem_of_Permutation [m2 H2]%elem_of_Permutation. apply (H l x y (m1 ++ m2)). rewrite H1, H2. simpl.
  constructor. symmetry. apply Permutation_middle.
Qed.

Section runs.
Context {V : Type}.
Implicit Types (w : world V) (c : conf V).
Variables (w0 : world V) (lt : lock -> lock -> Prop) (pl : Prop).

Definition all_locks c : list (lock * bool) := concat (map th_holds (cf_threads c)).
(** batch attaches meet no component already there *)
Definition batch_fresh (lab : label V) w : Prop :=
  match lab with
  | BBatch t lo hi _ => forall id st, lo <= id < hi -> w_comps w !! t = Some st -> ss_exist (st_set st) id = false
  | _ => True
  end.
Definition step_fresh (i : nat) c : Prop :=
  forall th lab, cf_threads c !! i = Some th -> next_label th = Some lab -> batch_fresh lab (cf_world c).
Definition batch_size (lab : label V) : Prop :=
  match lab with BBatch _ lo hi vs => length vs = hi - lo | _ => True end.

Lemma good_effect lab w : (forall o, lab <> BSet o) -> good w -> batch_fresh lab w -> good (effect lab w).
Proof.
  intros Hns G Hb. destruct lab as [| |n|id|t id v|t lo hi vs|t id|t id|i id|i id|i id| |o]; cbn [effect]; try done; [..|by destruct (Hns o)].
  - by apply ok_on_em; [apply em_alloc_noub|].
  - by apply ok_on_em; [apply em_alloc_n_noub|].
  - by apply ok_on_em; [apply em_remove_noub|].
  - by apply ok_storage_mut; [apply ok_add|].
  - unfold storage_mut. destruct (w_comps w !! t) as [st|] eqn:Hst; [|done].
    destruct (gd_st w G t st Hst) as [Hty Wf]. rewrite Hty, Nat.eqb_refl.
    destruct (decide (length vs = hi - lo)) as [El|El].
    + destruct (batch_wf lo (hi - lo) vs (st_set st) Wf) as [W' N]; [|done|].
      { intros id Hid. apply (Hb id st); [lia|done]. }
      destruct (ss_add_batch (seq lo (hi - lo)) vs (st_set st)) as [o s']. cbn [fst snd] in *.
      assert (good (set_comps (<[t:=St t s']> (w_comps w)) w)) as G' by (rewrite <- Hty at 2; by apply good_comp).
      by destruct o.
    + unfold ss_add_batch, bind, get, assert, panic. rewrite seq_length, (proj2 (Nat.eqb_neq _ _)) by done. cbn [fst snd].
      rewrite <- Hty at 2. by apply good_comp.
  - by apply ok_storage_mut; [apply ok_remove|].
  - by apply ok_dyn_mut; [apply ok_cs_remove|].
  - apply ok_run_group; [apply ok_full_add|apply ok_part_add|apply ok_non_add|done].
  - apply ok_run_group; [apply ok_full_remove|apply ok_part_remove|apply ok_non_remove|done].
  - destruct (gwork_kill (V := V) i id). apply ok_run_group; done.
Qed.

(** The invariant of runs. *)
Record cinv c : Prop := {
  ci_shape : same_shape w0 (cf_world c);
  ci_good : pl -> good (cf_world c);
  ci_thr : forall i th, cf_threads c !! i = Some th -> wp w0 lt pl False [] (th_holds th) (th_prog th) (fun _ m => m = []);
  ci_excl : excl (all_locks c)
}.
Lemma locks_split c i th : cf_threads c !! i = Some th -> all_locks c ≡ₚ th_holds th ++ holds_of_others i (cf_threads c).
Proof. intros H. unfold all_locks, holds_of_others. by rewrite (delete_Permutation _ _ _ H) at 1. Qed.
Lemma delete_put {A} (l : list A) i x : delete i (<[i := x]> l) = delete i l.
Proof. revert i. induction l as [|y l IH]; intros [|i]; simpl; try done. unfold delete in *. simpl. by rewrite IH. Qed.
Lemma locks_put c i th th' w' : cf_threads c !! i = Some th ->
  all_locks (Cf w' (<[i := th']> (cf_threads c))) ≡ₚ th_holds th' ++ holds_of_others i (cf_threads c).
Proof.
  intros H. rewrite (locks_split _ i th').
  - simpl. unfold holds_of_others. by rewrite delete_put.
  - simpl. by eapply lookup_insert_len.
Qed.
Lemma cinv_put c i th th' w' : cinv c -> cf_threads c !! i = Some th -> same_shape w0 w' -> (pl -> good w') ->
  wp w0 lt pl False [] (th_holds th') (th_prog th') (fun _ m => m = []) -> excl (th_holds th' ++ holds_of_others i (cf_threads c)) ->
  cinv (Cf w' (<[i := th']> (cf_threads c))).
Proof.
  intros HI Hi H1 H2 H3 H4. split; [done|done| |].
  - intros j th0 Hj. simpl in Hj. destruct (decide (j = i)) as [->|Hne].
    + rewrite (lookup_insert_len _ _ _ _ Hi) in Hj. by injection Hj as <-.
    + rewrite list_lookup_insert_ne in Hj by done. by eapply ci_thr.
  - eapply excl_perm; [symmetry; by eapply locks_put|done].
Qed.
Lemma cstep_cinv i c c' : cinv c -> (pl -> step_fresh i c) -> cstep i c = Some c' -> cinv c'.
Proof.
  intros HI Hf. unfold cstep. destruct (cf_threads c !! i) as [th|] eqn:Hi; [|done].
  pose proof (ci_thr c HI i th Hi) as Hw. pose proof (excl_perm _ _ (locks_split c i th Hi) (ci_excl c HI)) as He.
  unfold tstep. specialize (fun H => Hf H th). destruct th as [hs p]. unfold next_label in Hf. simpl in *.
  destruct p as [a| | | |l x k|l x k|B lab f k]; try done.
  - destruct (conflict _ l x) eqn:Ec; [done|]. intros [= <-]. destruct Hw as [_ Hw]. apply (cinv_put _ _ _ _ _ HI Hi); simpl; try done; try apply HI.
    by apply excl_cons.
  - intros [= <-]. destruct Hw as [Hin Hw]. apply (cinv_put _ _ _ _ _ HI Hi); simpl; try done; try apply HI.
    apply (excl_tail (l, x)). eapply excl_perm; [|exact He]. rewrite app_comm_cons. by rewrite drop_hold_perm.
  - destruct Hw as [[Hc Hm] Hw]. destruct (Hc _ (ci_shape c HI)) as (Hs & _ & _). specialize (Hm _ (ci_shape c HI)).
    specialize (Hw (cf_world c) (conj (ci_shape c HI) (ci_good c HI))).
    assert (pl -> good (f (cf_world c)).2) as Hg.
    { intros Hp. pose proof (ci_good c HI Hp) as G. specialize (Hf Hp lab Hi eq_refl). unfold moves in Hm.
      destruct lab; try (rewrite Hm; by apply good_effect); by apply Hm. }
    pose proof (shape_trans _ _ _ (ci_shape c HI) Hs) as Hs'.
    destruct (f (cf_world c)) as [[b| | |] w']; simpl in *; intros [= <-]; apply (cinv_put _ _ _ _ _ HI Hi); simpl; done.
Qed.
Fixpoint fresh_run (sched : list nat) c : Prop :=
  match sched with
  | [] => True
  | i :: sched' => step_fresh i c /\ match cstep i c with Some c' => fresh_run sched' c' | None => True end
  end.
Lemma run_cinv sched c c' : cinv c -> (pl -> fresh_run sched c) -> run sched c = Some c' -> cinv c'.
Proof.
  revert c. induction sched as [|i sched IH]; intros c HI Hf; simpl; [by intros [= <-]|].
  destruct (cstep i c) as [c1|] eqn:E; [|done]. apply IH.
  - eapply cstep_cinv; [done| |done]. intros Hp. by apply Hf.
  - intros Hp. specialize (Hf Hp). simpl in Hf. rewrite E in Hf. by destruct Hf.
Qed.
Lemma start_cinv cs : (pl -> good w0) -> Forall (client_ok w0 lt pl []) cs -> cinv (start w0 cs).
Proof.
  intros Hg Hc. split; simpl; [apply shape_refl|done| |].
  - intros i th Hi. rewrite list_lookup_fmap in Hi. destruct (cs !! i) as [cl|] eqn:E; [|done]. injection Hi as <-. simpl.
    apply (wp_compile w0 lt pl cl []); [done|]. by eapply (proj1 (Forall_lookup _ _) Hc).
  - unfold all_locks. simpl. rewrite map_map. simpl. replace (concat (map (fun _ => []) cs)) with (@nil (lock * bool)); [apply excl_nil|].
    clear. induction cs; simpl; done.
Qed.
Lemma cstep_piece i c c' lab : cinv c -> did i c = Some lab -> cstep i c = Some c' ->
  exists th, cf_threads c !! i = Some th /\ moves lab (cf_world c) (cf_world c') /\
    (forall l, (l, true) ∉ th_holds th -> part_eq l (cf_world c) (cf_world c')).
Proof.
  intros HI. unfold did, cstep. destruct (cf_threads c !! i) as [th|] eqn:Hi; [|done].
  pose proof (ci_thr c HI i th Hi) as Hw. unfold tstep, next_label. destruct th as [hs p]. simpl in *.
  destruct p as [a| | | |l x k|l x k|B lb f k]; try done. intros [= <-]. destruct Hw as [[Hc Hm] _].
  destruct (Hc _ (ci_shape c HI)) as (_ & Hs & _). specialize (Hm _ (ci_shape c HI)). rewrite app_nil_r in Hs.
  destruct (f (cf_world c)) as [[b| | |] w']; simpl in *; intros [= <-]; simpl; by exists (Th hs (PAct lb f k)).
Qed.
Lemma cstep_quiet i c c' : did i c = None -> cstep i c = Some c' -> cf_world c' = cf_world c.
Proof.
  unfold did, cstep. destruct (cf_threads c !! i) as [th|] eqn:Hi; [|done]. unfold tstep, next_label.
  destruct th as [hs p]. simpl. destruct p as [a| | | |l x k|l x k|B lb f k]; try done; intros _.
  - destruct (conflict _ _ _); [done|]. by intros [= <-].
  - by intros [= <-].
Qed.
(** A step leaves alone what it has not locked for writing, and what anybody
    else has locked. *)
Lemma step_frame i c c' th : cinv c -> cf_threads c !! i = Some th -> cstep i c = Some c' ->
  forall l, (l, true) ∉ th_holds th -> part_eq l (cf_world c) (cf_world c').
Proof.
  intros HI Hi Hc l Hl. destruct (did i c) as [lab|] eqn:E.
  - destruct (cstep_piece i c c' lab HI E Hc) as (th' & Hi' & _ & H). rewrite Hi in Hi'. injection Hi' as <-. auto.
  - rewrite (cstep_quiet i c c' E Hc). apply part_refl.
Qed.
Lemma step_protect i j c c' th l x : cinv c -> i <> j -> cf_threads c !! j = Some th -> (l, x) ∈ th_holds th -> cstep i c = Some c' ->
  part_eq l (cf_world c) (cf_world c').
Proof.
  intros HI Hij Hj Hin Hc. destruct (cf_threads c !! i) as [ti|] eqn:Hi; [|unfold cstep in Hc; by rewrite Hi in Hc].
  apply (step_frame i c c' ti HI Hi Hc). intros Ht.
  pose proof (excl_perm _ _ (locks_split c i ti Hi) (ci_excl c HI)) as He.
  assert ((l, x) ∈ holds_of_others i (cf_threads c)) as Ho.
  { apply elem_of_list_In, in_concat. exists (th_holds th). rewrite <- !elem_of_list_In. split; [|done]. apply elem_of_list_fmap. exists th. split; [done|].
    destruct (decide (j < i)).
    - apply (elem_of_list_lookup_2 _ j). by rewrite lookup_delete_lt.
    - apply (elem_of_list_lookup_2 _ (pred j)). rewrite lookup_delete_ge by lia. by replace (S (pred j)) with j by lia. }
  by destruct (excl_app _ _ l true x He Ht Ho).
Qed.
Lemma step_other i j c c' : i <> j -> cstep i c = Some c' -> cf_threads c' !! j = cf_threads c !! j.
Proof.
  intros Hij. unfold cstep. destruct (cf_threads c !! i) as [th|]; [|done]. destruct (tstep _ th _) as [[th' w']|]; [|done].
  intros [= <-]. simpl. by rewrite list_lookup_insert_ne.
Qed.
End runs.

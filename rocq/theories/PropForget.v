(** C57: guards that nobody will drop ([mem::forget], or a thread that keeps an
    object and does nothing more) can only make others wait. *)
From stdpp Require Import prelude list gmap.
From Verif Require Import Base Api ModelSparse ModelEntity ModelGroup ModelWorld ModelQuery ModelStep ModelConc
  SpecConc ProofSeq ProofSeq2 PropSeq ProofConc ProofConc8 ProofConc10 ProofConc11 PropConc.

Section forget.
Context {V : Type}.
Implicit Types (w : world V) (c : conf V) (F : gset nat) (sched : list nat).

(** The threads [F] do not move any more; what would be without their guards. *)
Definition rid F c : conf V :=
  Cf (cf_world c) (imap (fun j th => if decide (j ∈ F) then Th [] (PRet tt) else th) (cf_threads c)).
(** Thread [i] waits for a lock of which one of the threads [F] has a guard. *)
Definition waits_for F c (i : nat) : Prop :=
  cstep i c = None /\ exists l x j y, wants c i l x /\ j ∈ F /\ guard_of c j (l, y) /\ y || x = true.

Lemma rid_lookup F c i : i ∉ F -> cf_threads (rid F c) !! i = cf_threads c !! i.
Proof. intros H. unfold rid. cbn [cf_threads]. rewrite list_lookup_imap. destruct (cf_threads c !! i); [|done]. cbn. by rewrite decide_False. Qed.
Lemma rid_lookup_in F c i : i ∈ F -> cf_threads (rid F c) !! i = (fun _ => Th [] (PRet tt)) <$> cf_threads c !! i.
Proof. intros H. unfold rid. cbn [cf_threads]. rewrite list_lookup_imap. destruct (cf_threads c !! i); [|done]. cbn. by rewrite decide_True. Qed.
Lemma rid_insert F c i th w : i ∉ F -> rid F (Cf w (<[i := th]> (cf_threads c))) = Cf w (<[i := th]> (cf_threads (rid F c))).
Proof.
  intros H. unfold rid. cbn [cf_threads cf_world]. f_equal. apply list_eq. intros j. rewrite list_lookup_imap.
  destruct (decide (j = i)) as [->|Hj].
  - destruct (decide (i < length (cf_threads c))) as [Hl|Hl].
    + rewrite !list_lookup_insert; [cbn; by rewrite decide_False|by rewrite imap_length|done].
    + rewrite !lookup_ge_None_2; [done|rewrite insert_length, imap_length; lia|rewrite insert_length; lia].
  - rewrite !list_lookup_insert_ne by done. rewrite list_lookup_imap. done.
Qed.
Lemma elem_others i (ths : list (thread V)) g : g ∈ holds_of_others i ths <-> exists j th, j <> i /\ ths !! j = Some th /\ g ∈ th_holds th.
Proof.
  unfold holds_of_others. rewrite elem_of_list_In, in_concat. split.
  - intros (hs & H1 & H2). apply elem_of_list_In in H1, H2. apply elem_of_list_fmap in H1 as (th & -> & H1).
    apply elem_of_list_lookup in H1 as (j & Hj). destruct (decide (j < i)) as [Hl|Hl].
    + rewrite lookup_delete_lt in Hj by done. exists j, th. split; [lia|done].
    + rewrite lookup_delete_ge in Hj by lia. exists (S j), th. split; [lia|done].
  - intros (j & th & Hj & Ht & Hg). exists (th_holds th). split; [|by apply elem_of_list_In].
    apply elem_of_list_In, elem_of_list_fmap. exists th. split; [done|]. apply elem_of_list_lookup. destruct (decide (j < i)) as [Hl|Hl].
    + exists j. by rewrite lookup_delete_lt.
    + exists (j - 1). rewrite lookup_delete_ge by lia. by replace (S (j - 1)) with j by lia.
Qed.
Lemma conflict_iff (h : list (lock * bool)) l x : conflict h l x = true <-> exists y, (l, y) ∈ h /\ y || x = true.
Proof.
  unfold conflict. rewrite existsb_exists. split.
  - intros ([l' y] & Hin & [H1 H2]%andb_true_iff). apply bool_decide_eq_true in H1. cbn in *. subst l'. exists y. split; [by apply elem_of_list_In|done].
  - intros (y & Hin & Hy). exists (l, y). split; [by apply elem_of_list_In|]. cbn. by rewrite bool_decide_true.
Qed.
Lemma conflict_app (h h' : list (lock * bool)) l x : conflict (h ++ h') l x = conflict h l x || conflict h' l x.
Proof. unfold conflict. by rewrite existsb_app. Qed.

(** one step *)
Lemma step_rid F c i c1 : i ∉ F -> cstep i (rid F c) = Some c1 ->
  (exists c2, cstep i c = Some c2 /\ rid F c2 = c1) \/ waits_for F c i.
Proof.
  intros Hi. unfold cstep. rewrite rid_lookup by done. destruct (cf_threads c !! i) as [th|] eqn:Hth; [|done].
  assert (forall th' w', <[i:=th']> (cf_threads (rid F c)) = cf_threads (rid F (Cf w' (<[i:=th']> (cf_threads c))))) as Hins.
  { intros th' w'. by rewrite rid_insert. }
  change (cf_world (rid F c)) with (cf_world c).
  unfold tstep. destruct (th_prog th) as [a| | | |l x k|l x k|C lab f k] eqn:Ep; try done.
  - rewrite !conflict_app. destruct (conflict (th_holds th) l x) eqn:E1; [done|]. cbn [orb].
    destruct (conflict (holds_of_others i (cf_threads (rid F c))) l x) eqn:E2; [done|]. intros [= <-].
    destruct (conflict (holds_of_others i (cf_threads c)) l x) eqn:E3.
    + right. unfold waits_for. split.
      { unfold cstep. rewrite Hth. unfold tstep. rewrite Ep, conflict_app, E1, E3. done. }
      apply conflict_iff in E3 as (y & (j & th' & Hj & Ht & Hg)%elem_others & Hy). exists l, x, j, y.
      split; [by exists th, k|]. split; [|split; [by exists th'|done]].
      destruct (decide (j ∈ F)) as [|Hn]; [done|]. exfalso.
      assert (conflict (holds_of_others i (cf_threads (rid F c))) l x = true) as X; [|congruence].
      apply conflict_iff. exists y. split; [|done]. apply elem_others. exists j, th'. by rewrite rid_lookup.
    + left. eexists. split; [done|]. by rewrite rid_insert.
  - intros [= <-]. left. eexists. split; [done|]. by rewrite rid_insert.
  - destruct (f (cf_world c)) as [[b| | |] w']; intros [= <-]; left; (eexists; split; [done|]); by rewrite rid_insert.
Qed.
Lemma step_unrid F c i c2 : i ∉ F -> cstep i c = Some c2 -> cstep i (rid F c) = Some (rid F c2).
Proof.
  intros Hi. unfold cstep. rewrite rid_lookup by done. destruct (cf_threads c !! i) as [th|] eqn:Hth; [|done].
  change (cf_world (rid F c)) with (cf_world c).
  unfold tstep. destruct (th_prog th) as [a| | | |l x k|l x k|C lab f k] eqn:Ep; try done.
  - destruct (conflict (th_holds th ++ holds_of_others i (cf_threads c)) l x) eqn:E3; [done|]. intros [= <-].
    assert (conflict (th_holds th ++ holds_of_others i (cf_threads (rid F c))) l x = false) as ->; [|by rewrite rid_insert].
    apply not_true_iff_false. intros E. apply not_true_iff_false in E3. apply E3. apply conflict_iff in E as (y & Hin & Hy). apply conflict_iff. exists y. split; [|done].
    apply elem_of_app in Hin as [Hin|Hin]; apply elem_of_app; [by left|right].
    apply elem_others in Hin as (j & th' & Hj & Ht & Hg). apply elem_others. destruct (decide (j ∈ F)) as [Hf|Hf].
    + rewrite rid_lookup_in in Ht by done. destruct (cf_threads c !! j); [|done]. injection Ht as <-. by apply elem_of_nil in Hg.
    + rewrite rid_lookup in Ht by done. by exists j, th'.
  - intros [= <-]. by rewrite rid_insert.
  - destruct (f (cf_world c)) as [[b| | |] w']; intros [= <-]; by rewrite rid_insert.
Qed.

(** Let the threads [F] never move again.  Whatever the others do without their
    guards they do with them, until one of them waits for such a guard; *)
Theorem C57_only_wait F sched c c1 : (forall i, i ∈ sched -> i ∉ F) -> run sched (rid F c) = Some c1 ->
  (exists c2, run sched c = Some c2 /\ rid F c2 = c1) \/
  (exists pre i post c2, sched = pre ++ i :: post /\ run pre c = Some c2 /\ run pre (rid F c) = Some (rid F c2) /\ waits_for F c2 i).
Proof.
  revert c. induction sched as [|i sched IH]; intros c HF; cbn [run].
  - intros [= <-]. left. by exists c.
  - destruct (cstep i (rid F c)) as [c0|] eqn:E; [|done]. intros R.
    destruct (step_rid F c i c0 (HF i (elem_of_list_here _ _)) E) as [(c2 & E2 & <-)|Hw].
    + destruct (IH c2 (fun j Hj => HF j (elem_of_list_further _ _ _ Hj)) R) as [(c3 & R3 & <-)|(pre & j & post & c3 & -> & R1 & R2 & W)].
      * left. exists c3. by rewrite E2.
      * right. exists (i :: pre), j, post, c3. split; [done|]. cbn [run]. rewrite E, E2. done.
    + right. by exists [], i, sched, c.
Qed.
(** and they do nothing else. *)
Theorem C57_nothing_new F sched c c2 : (forall i, i ∈ sched -> i ∉ F) -> run sched c = Some c2 ->
  run sched (rid F c) = Some (rid F c2).
Proof.
  revert c. induction sched as [|i sched IH]; intros c HF; cbn [run]; [by intros [= <-]|].
  destruct (cstep i c) as [c0|] eqn:E; [|done]. intros R.
  rewrite (step_unrid F c i c0 (HF i (elem_of_list_here _ _)) E). apply IH; [|done]. intros j Hj. apply HF. by right.
Qed.
(** Who waits for a guard of a thread that never moves waits forever. *)
Theorem C57_waits_forever F sched c c2 i : (forall j, j ∈ sched -> j ∉ F) -> i ∉ F -> waits_for F c i -> run sched c = Some c2 ->
  i ∉ sched /\ waits_for F c2 i.
Proof.
  intros HF Hi. revert c HF. induction sched as [|j sched IH]; intros c HF W; cbn [run].
  - intros [= <-]. split; [apply not_elem_of_nil|done].
  - destruct (cstep j c) as [c0|] eqn:E; [|done]. intros R.
    destruct W as [Wn (l & x & f & y & Wa & Wf & Wg & Wy)].
    assert (j <> i) as Hji by (intros ->; congruence).
    assert (j <> f) as Hjf by (intros ->; by apply (HF f); [left|]).
    assert (forall m, m <> j -> cf_threads c0 !! m = cf_threads c !! m) as Hsame.
    { intros m Hm. unfold cstep in E. destruct (cf_threads c !! j) as [th|]; [|done]. destruct (tstep _ th _) as [[th' w']|]; [|done].
      injection E as <-. cbn [cf_threads]. by rewrite list_lookup_insert_ne. }
    assert (waits_for F c0 i) as W0.
    { destruct Wa as (th & k & Ht & Hp). destruct Wg as (th' & Ht' & Hg). split.
      - unfold cstep. rewrite Hsame by done. rewrite Ht. unfold tstep. rewrite Hp.
        assert (conflict (th_holds th ++ holds_of_others i (cf_threads c0)) l x = true) as ->; [|done].
        apply conflict_iff. exists y. split; [|done]. apply elem_of_app. right. apply elem_others. exists f, th'.
        split; [intros ->; done|]. split; [by rewrite Hsame|done].
      - exists l, x, f, y. split; [exists th, k; by rewrite Hsame|]. split; [done|]. split; [exists th'; by rewrite Hsame|done]. }
    destruct (IH c0 (fun m Hm => HF m (elem_of_list_further _ _ _ Hm)) W0 R) as [H1 H2].
    split; [|done]. apply not_elem_of_cons. done.
Qed.

(** What is behind a guard of a thread that never moves stays as it is. *)
Theorem C57_frozen w cs F sched c c2 j l x : reaches w cs c -> (forall i, i ∈ sched -> i ∉ F) -> j ∈ F -> guard_of c j (l, x) ->
  run sched c = Some c2 -> part_eq l (cf_world c) (cf_world c2).
Proof.
  intros HR HF Hj. revert c HR HF. induction sched as [|i sched IH]; intros c HR HF Hg; cbn [run].
  - intros [= <-]. apply part_refl.
  - destruct (cstep i c) as [c0|] eqn:E; [|done]. intros R.
    assert (j <> i) as Hji by (intros ->; by apply (HF i); [left|]).
    eapply part_trans; [by eapply C36_protected|]. apply (IH c0); [by eapply reaches_step| |destruct Hg as (th & Hth & Hg); exists th|done].
    + intros m Hm. apply HF. by right.
    + split; [|done]. rewrite <- Hth. unfold cstep in E. destruct (cf_threads c !! i); [|done]. destruct (tstep _ _ _) as [[? ?]|]; [|done].
      injection E as <-. cbn [cf_threads]. by rewrite list_lookup_insert_ne.
Qed.

(** Hence a call made while the other threads are idle, whatever guards they
    have: it gets the answer of the plain call (C49) or waits for one of these
    guards. *)
Theorem C57_call c i o k r w' : cf_threads c !! i = Some (Th [] (compile [] (Call o k))) -> callable o ->
  step o (cf_world c) = (r, w') -> match r with Ret _ | Panic => True | _ => False end ->
  (exists n, run (replicate n i) c = Some (goes_on c i w' [] (k r))) \/
  exists n c2 l x j y, run (replicate n i) c = Some c2 /\ cstep i c2 = None /\
    wants c2 i l x /\ j <> i /\ guard_of c j (l, y) /\ guard_of c2 j (l, y) /\ y || x = true.
Proof.
  intros Ht C E Hr. set (F := list_to_set (seq 0 (length (cf_threads c))) ∖ {[i]} : gset nat).
  assert (i ∉ F) as Hi by set_solver.
  assert (forall n m, m ∈ replicate n i -> m ∉ F) as HF by (intros n m [-> _]%elem_of_replicate; done).
  assert (quiet (rid F c) i [] (Call o k)) as Q.
  { split; [by rewrite rid_lookup|]. intros j g Hj (th & Hth & Hg). assert (j ∈ F) as Hjf.
    { apply lookup_lt_Some in Hth. unfold rid in Hth. cbn [cf_threads] in Hth. rewrite imap_length in Hth. unfold F.
      apply elem_of_difference. split; [|by apply not_elem_of_singleton]. apply elem_of_list_to_set, elem_of_seq. lia. }
    rewrite rid_lookup_in in Hth by done. destruct (cf_threads c !! j); [|done]. injection Hth as <-. by apply elem_of_nil in Hg. }
  destruct (C49_call (rid F c) i o k r w' Q C E Hr) as [n R].
  destruct (C57_only_wait F _ c _ (HF n) R) as [(c2 & R2 & E2)|(pre & m & post & c2 & Es & R1 & R2 & W)].
  - left. exists n. rewrite R2. f_equal. pose proof (f_equal cf_world E2) as Ew. cbn in Ew.
    assert (forall j, j <> i -> cf_threads c2 !! j = cf_threads c !! j) as Hs.
    { intros j Hj. clear -R2 Hj. revert c R2. induction n as [|n IH]; intros c; [by intros [= <-]|]. cbn [replicate run].
      destruct (cstep i c) as [c0|] eqn:E0; [|done]. intros R%IH. rewrite R. unfold cstep in E0.
      destruct (cf_threads c !! i); [|done]. destruct (tstep _ _ _) as [[? ?]|]; [|done]. injection E0 as <-. cbn [cf_threads].
      by rewrite list_lookup_insert_ne. }
    assert (cf_threads c2 !! i = Some (Th (all_holds (V := V) []) (compile [] (k r)))) as Hii.
    { rewrite <- (rid_lookup F) by done. rewrite E2. unfold goes_on. cbn [cf_threads]. rewrite list_lookup_insert; [done|].
      unfold rid. cbn [cf_threads]. rewrite imap_length. by eapply lookup_lt_Some. }
    unfold goes_on. destruct c2 as [w2 ths2]. cbn [cf_world cf_threads] in *. f_equal; [done|]. apply list_eq. intros j.
    destruct (decide (j = i)) as [->|Hj].
    + rewrite Hii, list_lookup_insert; [done|]. by eapply lookup_lt_Some.
    + rewrite list_lookup_insert_ne by done. by apply Hs.
  - right. assert (m = i) as ->.
    { assert (m ∈ replicate n i) as [-> _]%elem_of_replicate; [|done]. rewrite Es. apply elem_of_app. right. left. }
    assert (pre = replicate (length pre) i) as Epre.
    { symmetry. apply replicate_as_Forall. split; [done|]. apply Forall_forall. intros x Hx.
      assert (x ∈ replicate n i) as [-> _]%elem_of_replicate; [|done]. rewrite Es. apply elem_of_app. by left. }
    rewrite Epre in R1. destruct W as [Wn (l & x & j & y & Wa & Wf & Wg & Wy)].
    assert (j <> i) as Hj by (intros ->; done).
    exists (length pre), c2, l, x, j, y. split; [done|]. split; [done|]. split; [done|]. split; [done|]. split; [|done].
    destruct Wg as (th & Hth & Hg). exists th. split; [|done]. rewrite <- Hth. symmetry. clear -R1 Hj. revert c R1. generalize (length pre) as n.
    induction n as [|n IH]; intros c; [by intros [= <-]|]. cbn [replicate run].
    destruct (cstep i c) as [c0|] eqn:E0; [|done]. intros R%IH. rewrite R. unfold cstep in E0.
    destruct (cf_threads c !! i); [|done]. destruct (tstep _ _ _) as [[? ?]|]; [|done]. injection E0 as <-. cbn [cf_threads].
    by rewrite list_lookup_insert_ne.
Qed.
End forget.

(** A case: thread 0 forgets a write guard of storage 1; thread 1 reads storage 2
    as usual, then wants to read storage 1 and waits for ever. *)
Definition w57 : world nat := after [Register 1; Register 2; CreateEntity; Attach 1 1 5; Attach 2 1 6].
Definition ask57 : client nat := Call (ReadComp 2 1) (fun _ => Call (ReadComp 1 1) (fun _ => Done)).
Definition c57 : option (conf nat) := run [0; 0] (start w57 [GetStore 1 true (fun _ => Done); ask57]).
Definition ended (c : conf nat) (i : nat) : bool :=
  match cf_threads c !! i with Some th => match th_prog th, th_holds th with PRet _, [] => true | _, _ => false end | None => false end.
Definition keeps (c : conf nat) (i : nat) : list (lock * bool) := default [] (th_holds <$> cf_threads c !! i).
Example C57_case : exists c, c57 = Some c /\ keeps c 0 = [(LStore 1, true)] /\
  (exists c2, run (replicate 5 1) c = Some c2 /\ waits_for {[0]} c2 1) /\
  (exists c1, run (replicate 8 1) (rid {[0]} c) = Some c1 /\ ended c1 1 = true).
Proof.
  unfold c57. eexists. split; [cbv - [w57]; reflexivity|]. split; [reflexivity|]. split.
  - eexists. split; [vm_compute; reflexivity|]. split; [vm_compute; reflexivity|].
    exists (LStore 1), false, 0, true. split; [eexists _, _; split; vm_compute; reflexivity|]. split; [by apply elem_of_singleton|].
    split; [|done]. eexists. split; [vm_compute; reflexivity|]. vm_compute. left.
  - eexists. split; [vm_compute; reflexivity|]. by vm_compute.
Qed.

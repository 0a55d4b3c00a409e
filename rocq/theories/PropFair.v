(** C38 with parking_lot's fairness: a reader waits behind a waiting writer even
    if it could be granted the lock (the crate's RwLock is parking_lot's).  This
    only takes moves away from the threads, so everything proved for all
    schedules (C36, C37, C39, C46, ...) holds as it stands; what can get worse
    is deadlock. *)
From Coq Require Import Sorting.Sorted.
From stdpp Require Import prelude list gmap.
From Verif Require Import Base Api ModelSparse ModelEntity ModelGroup ModelWorld ModelQuery ModelStep ModelConc SpecConc
  Spec History Rules Samples PropSafe ProofConc11 PropConc PropConc2.

Section fair.
Context {V : Type}.
Implicit Types (w : world V) (c : conf V).

(** Thread [i] may be kept waiting: it cannot be granted the lock it wants, or
    it wants to read while somebody else has the lock and somebody else waits
    to write. *)
Definition held_up c (i : nat) : Prop :=
  exists l x, wants c i l x /\
    (cstep i c = None \/
     (x = false /\ (exists j, j <> i /\ wants c j l true) /\ exists j y, guard_of c j (l, y))).
(** everybody is through or kept waiting, and not everybody is through *)
Definition stuck_behind c : Prop :=
  (forall i th, cf_threads c !! i = Some th -> finished c i \/ held_up c i) /\
  exists i th, cf_threads c !! i = Some th /\ ~ finished c i.

(** Threads that take the locks in order never get there. *)
Theorem C38_fair_partial rank gq w cs c : groups_in_order rank w -> Forall (tidy rank gq w None) cs -> reaches w cs c ->
  (forall i, ~ crashed c i) -> ~ stuck_behind c.
Proof.
  intros Hg Hcs HR HC [Hall (i & th & Hi & Hnf)].
  destruct (C38_ordered_partial rank gq w cs c Hg Hcs HR) as [H|[[j H]|[j [[c' Hm] Hfree]]]].
  - by eapply Hnf, H.
  - by eapply HC.
  - assert (exists thj, cf_threads c !! j = Some thj) as [thj Hj].
    { unfold cstep in Hm. destruct (cf_threads c !! j) as [t|]; [by eexists|done]. }
    destruct (Hall j thj Hj) as [(t & Ht & E & _)|(l & x & Hw & [Hn|(_ & _ & k & y & Hk)])].
    + unfold cstep in Hm. rewrite Ht in Hm. destruct t; simpl in *. by rewrite E in Hm.
    + congruence.
    + by eapply Hfree.
Qed.

(** a check by computation *)
Definition behind (c : conf V) (i : nat) : bool :=
  match cf_threads c !! i with
  | None => true
  | Some th =>
      match th_prog th with
      | PAcq l x _ => stays i c ||
          (negb x && existsb (fun j => negb (j =? i) && wanting j l true c) (seq 0 (length (cf_threads c)))
             && existsb (fun j => kept j l false c) (seq 0 (length (cf_threads c))))
      | PRet _ => match th_holds th with [] => true | _ => false end
      | _ => false
      end
  end.
Lemma behind_ok c i : forallb (behind c) (seq 0 (length (cf_threads c))) = true -> waits i c = true -> stuck_behind c.
Proof.
  intros H Hw. split.
  - intros j th Hj. rewrite forallb_forall in H. specialize (H j). rewrite in_seq in H.
    pose proof (lookup_lt_Some _ _ _ Hj). specialize (H ltac:(lia)). unfold behind in H. rewrite Hj in H.
    destruct (th_prog th) as [[]| | | |l x k| |] eqn:Ep; try done.
    + left. exists th. split; [done|]. split; [done|]. by destruct (th_holds th).
    + right. exists l, x. split; [by exists th, k|]. apply orb_true_iff in H as [H|H].
      * left. by apply stays_ok.
      * right. apply andb_true_iff in H as [[Hx Hb]%andb_true_iff Ha]. split; [by destruct x|].
        apply existsb_exists in Hb as (m & _ & [Hm1 Hm2]%andb_true_iff). apply existsb_exists in Ha as (n & _ & Hn). split.
        -- exists m. split; [|by apply wanting_ok]. intros ->. by rewrite Nat.eqb_refl in Hm1.
        -- exists n, false. by apply kept_guard.
  - unfold waits in Hw. destruct (cf_threads c !! i) as [th|] eqn:Hi; [|done]. exists i, th. split; [done|].
    intros (th' & Hi' & E & _). rewrite Hi in Hi'. injection Hi' as <-. by rewrite E in Hw.
Qed.
End fair.

(** A thread reading a type twice in one query and a thread attaching the type
    can wait for each other (no lock order inversion, no second object). *)
Definition reader11 : client nat := Call (Query (Q2 (QRef false 1) (QRef false 1))) (fun _ => Done).
Definition ungrouped1 : list (op nat) := [Register 1; CreateEntity].
Definition attacher1 : client nat := Call (Attach 1 1 11) (fun _ => Done).
Theorem C38_read_twice_refuted : exists (cs : list (client nat)) c,
  rules ungrouped1 /\ Forall (single false) cs /\ reaches (after ungrouped1) cs c /\ stuck_behind c /\ ~ deadlocked c.
Proof.
  exists [reader11; attacher1], (at_end (repeat 0 4 ++ repeat 1 3) (start (after ungrouped1) [reader11; attacher1])).
  split; [check_rules|]. split; [by repeat constructor|].
  split; [apply at_end_reaches; vm_compute; reflexivity|].
  split; [apply (behind_ok _ 0); vm_compute; reflexivity|].
  intros [H _]. specialize (H 0). revert H. vm_compute. done.
Qed.
(** So can a thread that has an entity handle and asks whether an entity
    exists (or uses attach_component, ...), and a thread creating one. *)
Definition holder_asks : client nat := GetEntity 1 (fun _ => Call (Exist 1) (fun _ => DropObj 0 Done)).
Definition creator : client nat := Call CreateEntity (fun _ => Done).
Theorem C38_handle_asks_refuted : exists (cs : list (client nat)) c,
  rules ungrouped1 /\ reaches (after ungrouped1) cs c /\ stuck_behind c /\ ~ deadlocked c /\
  wants c 0 LMan false /\ guard_of c 0 (LMan, false) /\ wants c 1 LMan true.
Proof.
  exists [holder_asks; creator], (at_end (repeat 0 2) (start (after ungrouped1) [holder_asks; creator])).
  split; [check_rules|].
  split; [apply at_end_reaches; vm_compute; reflexivity|].
  split; [apply (behind_ok _ 0); vm_compute; reflexivity|].
  split; [intros [H _]; specialize (H 0); revert H; vm_compute; done|].
  split; [apply wanting_ok; vm_compute; reflexivity|].
  split; [apply kept_guard; vm_compute; reflexivity|].
  apply wanting_ok; vm_compute; reflexivity.
Qed.

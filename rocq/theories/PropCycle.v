(** C38: what a deadlock is.  Threads are stuck exactly when some of them wait
    for each other in a ring (of one thread, possibly): whoever avoids rings,
    by an order on locks or otherwise, never deadlocks. *)
From stdpp Require Import prelude list gmap relations.
From Verif Require Import Base Api ModelSparse ModelEntity ModelGroup ModelWorld ModelQuery ModelStep ModelConc SpecConc
  Spec History Rules Samples ProofConc ProofConc4 ProofConc8 ProofConc10 ProofConc11 PropConc PropConc2 PropFair.

(** Thread [i] wants a lock and cannot have it because thread [j] (maybe [i]
    itself) has a guard on it. *)
Definition waits_for {V} (c : conf V) (i j : nat) : Prop :=
  exists l x y, wants c i l x /\ guard_of c j (l, y) /\ x || y = true.
(** The same, but it may wait behind a waiting writer instead of the guard
    itself (parking_lot). *)
Definition waits_behind {V} (c : conf V) (i j : nat) : Prop :=
  exists l x y, wants c i l x /\ guard_of c j (l, y) /\ (x || y = true \/ exists k, k <> i /\ wants c k l true).
(** [tc (waits_for c) i i]: thread [i] waits in a ring. *)
Definition in_ring {V} (c : conf V) (i : nat) : Prop := tc (waits_for c) i i.

Section cycle.
Context {V : Type}.
Implicit Types (w : world V) (c : conf V) (cs : list (client V)).

(** ** Rings in finite graphs *)
Lemma dup_split (l : list nat) : ~ NoDup l -> exists x l1 l2 l3, l = l1 ++ x :: l2 ++ x :: l3.
Proof.
  induction l as [|a l IH]; intros H; [by destruct H; constructor|]. destruct (decide (a ∈ l)) as [Hin|Hin].
  - apply elem_of_list_split in Hin as (l2 & l3 & ->). by exists a, [], l2, l3.
  - destruct IH as (x & l1 & l2 & l3 & ->); [intros Hn; apply H; by constructor|]. by exists x, (a :: l1), l2, l3.
Qed.
(** [l] is a path of [R] starting at [i] *)
Fixpoint path (R : nat -> nat -> Prop) (i : nat) (l : list nat) : Prop :=
  match l with [] => True | j :: l' => R i j /\ path R j l' end.
Lemma path_rtc R i l1 x l2 : path R i (l1 ++ x :: l2) -> tc R i x /\ path R x l2.
Proof.
  revert i. induction l1 as [|a l1 IH]; intros i; cbn [path app].
  - intros [H1 H2]. split; [by apply tc_once|done].
  - intros [H1 [H2 H3]%IH]. split; [by eapply tc_l|done].
Qed.
Lemma ring_exists (R : nat -> nat -> Prop) (P Q : nat -> Prop) n : (forall i, P i -> i < n) ->
  (forall i, P i -> Q i \/ exists j, R i j /\ P j) ->
  forall i, P i -> exists j, rtc R i j /\ (Q j \/ tc R j j).
Proof.
  intros Hn Hs i Hi.
  assert (forall m i, P i -> (exists j, rtc R i j /\ Q j) \/ exists l, length l = m /\ path R i l /\ Forall P l) as Hp.
  { clear i Hi. induction m as [|m IH]; intros i Hi; [right; by exists []|].
    destruct (Hs i Hi) as [HQ|(j & Hj & Pj)]; [left; by exists i|]. destruct (IH j Pj) as [(k & Hk & HQ)|(l & Hl & Hpl & HF)].
    - left. exists k. split; [by eapply rtc_l|done].
    - right. exists (j :: l). cbn [length path]. split; [by rewrite Hl|]. by split; [|constructor]. }
  destruct (Hp (S n) i Hi) as [(j & Hj & HQ)|(l & Hl & Hpl & HF)]; [exists j; auto|].
  destruct (decide (NoDup l)) as [Hnd|Hnd].
  - exfalso. assert (l ⊆+ seq 0 n) as Hle%submseteq_length.
    { apply NoDup_submseteq; [done|]. intros x Hx. rewrite Forall_forall in HF. apply elem_of_seq. specialize (Hn x (HF x Hx)). lia. }
    rewrite seq_length in Hle. lia.
  - apply dup_split in Hnd as (x & l1 & l2 & l3 & ->). apply path_rtc in Hpl as [H1 H2]. apply path_rtc in H2 as [H2 _].
    exists x. split; [by apply tc_rtc|by right].
Qed.

(** ** Waiting *)
Lemma run_length sched c c' : run sched c = Some c' -> length (cf_threads c') = length (cf_threads c).
Proof.
  revert c. induction sched as [|k sched IH]; intros c; cbn [run]; [by intros [= <-]|].
  destruct (cstep k c) as [c1|] eqn:Ek; [|done]. intros H. rewrite (IH _ H). unfold cstep in Ek.
  destruct (cf_threads c !! k) as [th|]; [|done]. destruct (tstep _ _ _) as [[th' w']|]; [|done]. injection Ek as <-.
  cbn [cf_threads]. by rewrite insert_length.
Qed.
Lemma start_length w cs : length (cf_threads (start w cs)) = length cs.
Proof. unfold start. cbn. by rewrite fmap_length. Qed.
Lemma someone_has c i (l : lock) (y : bool) th : cf_threads c !! i = Some th -> (l, y) ∈ th_holds th ++ holds_of_others i (cf_threads c) ->
  exists j, guard_of c j (l, y).
Proof.
  intros Hi [Hy|Hy]%elem_of_app; [by exists i, th|].
  unfold holds_of_others in Hy. apply elem_of_list_In, in_concat in Hy as (hs & Hhs & Hy). rewrite <- !elem_of_list_In in *.
  apply elem_of_list_fmap in Hhs as (tj & -> & Hj).
  assert (tj ∈ cf_threads c) as [j Hj']%elem_of_list_lookup by (rewrite (delete_Permutation _ _ _ Hi); by right).
  by exists j, tj.
Qed.
Lemma guard_lt c i g : guard_of c i g -> i < length (cf_threads c) /\ ~ finished c i.
Proof.
  intros (th & Hi & Hg). split; [by eapply lookup_lt_Some|]. intros (th' & Hi' & _ & Hh). rewrite Hi in Hi'. injection Hi' as <-.
  rewrite Hh in Hg. by apply elem_of_nil in Hg.
Qed.
Lemma not_moving w cs c i th : reaches w cs c -> cf_threads c !! i = Some th -> ~ finished c i -> ~ crashed c i -> ~ hung c i ->
  (exists c', cstep i c = Some c') \/ exists j, waits_for c i j.
Proof.
  intros HR%reach_any Hi Hf Hc Hh. pose proof (ci_thr _ _ _ c HR i th Hi) as Hw. unfold cstep. rewrite Hi. unfold tstep.
  destruct (th_prog th) as [[]| | | |l x k|l x k|B lab f k] eqn:Ep.
  - destruct Hf. exists th. split; [done|]. split; [done|]. destruct Hw as (m & Hp & ->). by apply Permutation_nil.
  - done.
  - destruct Hc. by exists th.
  - destruct Hh. by exists th.
  - destruct (conflict _ l x) eqn:Ec; [|left; by eexists]. right. apply conflict_true in Ec as (y & Hy & Hxy).
    destruct (someone_has c i l y th Hi Hy) as [j Hj]. exists j, l, x, y. split; [by exists th, k|]. split; [done|]. by rewrite orb_comm.
  - left. by eexists.
  - left. destruct (f (cf_world c)) as [[]]; by eexists.
Qed.

(** C36: a thread waits for a lock exactly while somebody has a guard on it
    that does not go with the one it wants; in particular readers do not wait
    for readers. *)
Theorem C36_waits_exactly c i l x : wants c i l x ->
  (cstep i c = None <-> exists j y, guard_of c j (l, y) /\ (x = true \/ y = true)).
Proof.
  intros (th & k & Hi & Hk). unfold cstep. rewrite Hi. unfold tstep. rewrite Hk.
  destruct (conflict (th_holds th ++ holds_of_others i (cf_threads c)) l x) eqn:Ec.
  - split; [intros _|done]. apply conflict_true in Ec as (y & Hy & Hxy). destruct (someone_has c i l y th Hi Hy) as [j Hj].
    exists j, y. split; [done|]. apply orb_true_iff in Hxy. tauto.
  - split; [done|]. intros (j & y & (tj & Hj & Hg) & Hxy). exfalso.
    assert (conflict (th_holds th ++ holds_of_others i (cf_threads c)) l x = true); [|congruence].
    apply conflict_true. exists y. split; [|apply orb_true_iff; tauto]. apply elem_of_app. destruct (decide (i = j)) as [->|Hij].
    + left. rewrite Hi in Hj. by injection Hj as <-.
    + right. by eapply in_others.
Qed.
(** From every thread that is not through, following who waits for whom leads
    to a thread that can move or into a ring. *)
Theorem C38_wait_chain w cs c i : reaches w cs c -> (forall j, ~ crashed c j) -> (forall j, ~ hung c j) ->
  i < length cs -> ~ finished c i ->
  exists j, rtc (waits_for c) i j /\ ((exists c', cstep j c = Some c') \/ in_ring c j).
Proof.
  intros HR Hc Hh Hi Hf. apply (ring_exists (waits_for c) (fun i => i < length (cf_threads c) /\ ~ finished c i) (fun j => exists c', cstep j c = Some c') (length (cf_threads c))).
  - by intros j [? _].
  - intros j [[th Hj]%lookup_lt_is_Some Hfj]. destruct (not_moving w cs c j th HR Hj Hfj (Hc j) (Hh j)) as [H|[k Hk]]; [by left|right].
    exists k. split; [done|]. destruct Hk as (l & x & y & _ & Hg & _). by eapply guard_lt.
  - split; [|done]. destruct HR as [sched Hr]. by rewrite (run_length _ _ _ Hr), start_length.
Qed.
(** So a deadlock is a ring, *)
Theorem C38_deadlock_is_ring w cs c : reaches w cs c -> (forall j, ~ crashed c j) -> (forall j, ~ hung c j) ->
  deadlocked c -> exists i, in_ring c i.
Proof.
  intros HR Hc Hh [Hs (i & th & Hi & Hf & _)].
  destruct (C38_wait_chain w cs c i HR Hc Hh) as (j & _ & [[c' Hj]|Hj]); [|done|by rewrite Hs in Hj|by exists j].
  destruct HR as [sched Hr]. rewrite <- (start_length w cs), <- (run_length _ _ _ Hr). by eapply lookup_lt_Some.
Qed.
(** and threads in a ring never move again, whatever the others do. *)
Lemma ring_next c i : in_ring c i -> exists j, waits_for c i j /\ in_ring c j.
Proof. intros H. inversion H as [? ? H1|? j ? H1 H2]; subst; [by exists i|]. exists j. split; [done|]. by eapply tc_r. Qed.
Lemma waits_stays c i j : waits_for c i j -> cstep i c = None.
Proof.
  intros (l & x & y & (th & k & Hi & Hk) & (tj & Hj & Hg) & Hxy). unfold cstep. rewrite Hi. unfold tstep. rewrite Hk.
  assert (conflict (th_holds th ++ holds_of_others i (cf_threads c)) l x = true) as ->; [|done].
  apply conflict_true. exists y. split; [|by rewrite orb_comm]. apply elem_of_app. destruct (decide (i = j)) as [->|Hij].
  - left. rewrite Hi in Hj. by injection Hj as <-.
  - right. by eapply in_others.
Qed.
Lemma waits_keep c c' i j : cf_threads c' !! i = cf_threads c !! i -> cf_threads c' !! j = cf_threads c !! j -> waits_for c i j -> waits_for c' i j.
Proof.
  intros E1 E2 (l & x & y & (th & k & Hi & Hk) & (tj & Hj & Hg) & Hxy). exists l, x, y. split; [exists th, k; by rewrite E1|].
  split; [exists tj; by rewrite E2|done].
Qed.
Theorem C38_ring_is_stuck c c' i : in_ring c i -> later c c' -> cf_threads c' !! i = cf_threads c !! i /\ cstep i c' = None.
Proof.
  intros Hi [sched Hr].
  assert (forall sched c', run sched c = Some c' -> forall i, in_ring c i -> cf_threads c' !! i = cf_threads c !! i) as Hkeep.
  { clear. intros sched. induction sched as [|k sched IH] using rev_ind; intros c' Hr i Hi; [by injection Hr as <-|].
    rewrite <- run_app in Hr. destruct (run sched c) as [cm|] eqn:Em; [|done]. cbn [mbind option_bind run] in Hr.
    destruct (cstep k cm) as [c1|] eqn:Ek; [|done]. injection Hr as <-. destruct (decide (k = i)) as [->|Hk].
    - exfalso. destruct (ring_next c i Hi) as (j & Hj & Rj). rewrite (waits_stays cm i j) in Ek; [done|].
      eapply waits_keep; [by eapply IH|by eapply IH|done].
    - rewrite (step_other k i cm c1 Hk Ek). by apply (IH cm). }
  split; [by eapply Hkeep|]. destruct (ring_next c i Hi) as (j & Hj & Rj). apply (waits_stays c' i j).
  eapply waits_keep; [by eapply Hkeep|by eapply Hkeep|done].
Qed.
(** Any order on the locks will do: if every thread that wants a lock has
    guards on smaller ones only, there is no deadlock. *)
Lemma wants_same c i l x l' x' : wants c i l x -> wants c i l' x' -> l = l' /\ x = x'.
Proof. intros (th & k & Hi & Hk) (th' & k' & Hi' & Hk'). rewrite Hi in Hi'. injection Hi' as <-. rewrite Hk in Hk'. by injection Hk' as <- <- _. Qed.
Theorem C38_any_order (lt : lock -> lock -> Prop) w cs c :
  (forall l, ~ lt l l) -> (forall l1 l2 l3, lt l1 l2 -> lt l2 l3 -> lt l1 l3) ->
  reaches w cs c -> (forall j, ~ crashed c j) -> (forall j, ~ hung c j) ->
  (forall i l x l' x', wants c i l x -> guard_of c i (l', x') -> lt l' l) -> ~ deadlocked c.
Proof.
  intros Hirr Htr HR Hc Hh Ho HD. destruct (C38_deadlock_is_ring w cs c HR Hc Hh HD) as [i Hi].
  assert (forall i j, tc (waits_for c) i j -> forall l x l' x', wants c i l x -> wants c j l' x' -> lt l l') as Hup.
  { clear i Hi. induction 1 as [i j (l1 & x1 & y1 & Hw & Hg & _)|i k j (l1 & x1 & y1 & Hw & Hg & _) Hkj IH]; intros l x l' x' H1 H2.
    - destruct (wants_same c i l x l1 x1 H1 Hw) as [-> ->]. by eapply Ho.
    - destruct (wants_same c i l x l1 x1 H1 Hw) as [-> ->].
      assert (exists l2 x2, wants c k l2 x2) as (l2 & x2 & H3).
      { inversion Hkj as [? ? (l2 & x2 & ? & ? & _)|? ? ? (l2 & x2 & ? & ? & _)]; subst; by exists l2, x2. }
      eapply Htr; [by eapply Ho|]. by eapply IH. }
  destruct (ring_next c i Hi) as (j & (l & x & y & Hw & _) & _). apply (Hirr l). by eapply (Hup i i Hi).
Qed.
(** With parking_lot's rule too: stuck threads wait in a ring, where a reader
    may wait behind a writer that waits for the next in the ring. *)
Theorem C38_fair_ring w cs c : reaches w cs c -> stuck_behind c -> exists i, tc (waits_behind c) i i.
Proof.
  intros HR [Hall (i & th & Hi & Hf)].
  assert (forall j, j < length (cf_threads c) /\ ~ finished c j -> exists k, waits_behind c j k /\ (k < length (cf_threads c) /\ ~ finished c k)) as Hnext.
  { intros j [[tj Hj]%lookup_lt_is_Some Hfj]. destruct (Hall j tj Hj) as [|(l & x & Hw & [Hn|(-> & Hwr & k & y & Hk)])]; [done| |].
    - destruct (not_moving w cs c j tj HR Hj Hfj) as [[c' Hm]|(k & l' & x' & y & H1 & H2 & H3)].
      + intros (t & Ht & E). destruct Hw as (t' & k & Ht' & E'). congruence.
      + intros (t & Ht & E). destruct Hw as (t' & k & Ht' & E'). congruence.
      + by rewrite Hm in Hn.
      + exists k. split; [exists l', x', y; auto|by eapply guard_lt].
    - exists k. split; [exists l, false, y; auto|by eapply guard_lt]. }
  destruct (ring_exists (waits_behind c) (fun i => i < length (cf_threads c) /\ ~ finished c i) (fun _ => False) (length (cf_threads c))) with (i := i) as (j & _ & [[]|Hj]).
  - by intros j [? _].
  - intros j Hj. right. by apply Hnext.
  - split; [by eapply lookup_lt_Some|done].
  - by exists j.
Qed.
End cycle.

(** ** Concrete cases *)
(** The two deadlocks of PropConc2: each thread waits for the other. *)
Example C38_ring_case : exists (cs : list (client nat)) c,
  rules two_types /\ reaches (after two_types) cs c /\ deadlocked c /\ (forall j, ~ crashed c j) /\ (forall j, ~ hung c j) /\
  waits_for c 0 1 /\ waits_for c 1 0 /\ in_ring c 0.
Proof.
  exists [reader12; reader21], (at_end (repeat 0 4 ++ repeat 1 4 ) (start (after two_types) [reader12; reader21])).
  split; [check_rules|]. split; [apply at_end_reaches; vm_compute; reflexivity|].
  split; [apply (deadlock_ok 0); vm_compute; reflexivity|].
  assert (forall c : conf nat, waits_for c 0 1 -> waits_for c 1 0 -> length (cf_threads c) = 2 ->
    (forall j, ~ crashed c j) /\ (forall j, ~ hung c j) /\ waits_for c 0 1 /\ waits_for c 1 0 /\ in_ring c 0) as Hall.
  { intros c H0 H1 Hl.
    assert (forall j th, cf_threads c !! j = Some th -> exists l x k, th_prog th = PAcq l x k) as Hw.
    { intros j th Hj. pose proof (lookup_lt_Some _ _ _ Hj) as Hlt. rewrite Hl in Hlt.
      destruct j as [|[|j]]; [destruct H0 as (l & x & _ & (t & k & Ht & E) & _)|destruct H1 as (l & x & _ & (t & k & Ht & E) & _)|lia];
        rewrite Hj in Ht; injection Ht as <-; by exists l, x, k. }
    split; [|split; [|split; [done|split; [done|]]]].
    - intros j (th & Hj & E). destruct (Hw j th Hj) as (l & x & k & E'). by rewrite E in E'.
    - intros j (th & Hj & E). destruct (Hw j th Hj) as (l & x & k & E'). by rewrite E in E'.
    - by eapply tc_l; [|apply tc_once]. }
  apply Hall.
  - exists (LStore 2), true, true. split; [apply wanting_ok; vm_compute; reflexivity|]. split; [|done]. apply kept_guard; vm_compute; reflexivity.
  - exists (LStore 1), true, true. split; [apply wanting_ok; vm_compute; reflexivity|]. split; [|done]. apply kept_guard; vm_compute; reflexivity.
  - vm_compute. reflexivity.
Qed.

(** The hypothesis of [C38_any_order], checked by computing. *)
Definition climbing (rank : lock -> nat) {V} (c : conf V) : bool :=
  forallb (fun th => match th_prog th with PAcq l _ _ => forallb (fun g => rank g.1 <? rank l) (th_holds th) | _ => true end) (cf_threads c).
Lemma climbing_ok rank {V} (c : conf V) : climbing rank c = true ->
  forall i l x l' x', wants c i l x -> guard_of c i (l', x') -> rank l' < rank l.
Proof.
  intros H i l x l' x' (th & k & Hi & Hk) (th' & Hi' & Hg). rewrite Hi in Hi'. injection Hi' as <-.
  unfold climbing in H. rewrite forallb_forall in H.
  assert (In th (cf_threads c)) as Hin by by apply elem_of_list_In, (elem_of_list_lookup_2 _ i).
  specialize (H th Hin). rewrite Hk in H. pose proof (proj1 (forallb_forall _ _) H) as H'.
  specialize (H' (l', x')). apply Nat.ltb_lt, H'. by apply elem_of_list_In.
Qed.
(** Two threads that both take type 2 before type 1, one with the first storage,
    the other waiting for it. *)
Example C38_any_order_case : exists (rank : lock -> nat) (cs : list (client nat)) c,
  rules two_types /\ reaches (after two_types) cs c /\ (forall j, ~ crashed c j) /\ (forall j, ~ hung c j) /\
  (forall i l x l' x', wants c i l x -> guard_of c i (l', x') -> rank l' < rank l) /\
  wants c 0 (LStore 1) true /\ guard_of c 0 (LStore 2, true) /\ wants c 1 (LStore 2) true /\ waits_for c 1 0.
Proof.
  exists (fun l => match l with LStore t => 100 - t | _ => 0 end), [reader21; reader21],
    (at_end (repeat 0 4 ++ repeat 1 1) (start (after two_types) [reader21; reader21])).
  split; [check_rules|]. split; [apply at_end_reaches; vm_compute; reflexivity|].
  assert (forall c : conf nat, wants c 0 (LStore 1) true -> wants c 1 (LStore 2) true -> guard_of c 0 (LStore 2, true) -> length (cf_threads c) = 2 ->
    climbing (fun l => match l with LStore t => 100 - t | _ => 0 end) c = true ->
    (forall j, ~ crashed c j) /\ (forall j, ~ hung c j) /\
  (forall i l x l' x', wants c i l x -> guard_of c i (l', x') -> match l' with LStore t => 100 - t | _ => 0 end < match l with LStore t => 100 - t | _ => 0 end) /\
    wants c 0 (LStore 1) true /\ guard_of c 0 (LStore 2, true) /\ wants c 1 (LStore 2) true /\ waits_for c 1 0) as Hall.
  { intros c H0 H1 Hg Hl Hc.
    assert (forall j th, cf_threads c !! j = Some th -> exists l x k, th_prog th = PAcq l x k) as Hw.
    { intros j th Hj. pose proof (lookup_lt_Some _ _ _ Hj) as Hlt. rewrite Hl in Hlt.
      destruct j as [|[|j]]; [destruct H0 as (t & k & Ht & E)|destruct H1 as (t & k & Ht & E)|lia];
        rewrite Hj in Ht; injection Ht as <-; by eexists _, _, k. }
    split; [|split; [|split; [|split; [done|split; [done|split; [done|]]]]]].
    - intros j (th & Hj & E). destruct (Hw j th Hj) as (l & x & k & E'). by rewrite E in E'.
    - intros j (th & Hj & E). destruct (Hw j th Hj) as (l & x & k & E'). by rewrite E in E'.
    - intros i l x l' x' Hi Hj. by apply (climbing_ok (fun l => match l with LStore t => 100 - t | _ => 0 end) c Hc i l x l' x').
    - by exists (LStore 2), true, true. }
  apply Hall.
  - apply wanting_ok; vm_compute; reflexivity.
  - apply wanting_ok; vm_compute; reflexivity.
  - apply kept_guard; vm_compute; reflexivity.
  - vm_compute; reflexivity.
  - vm_compute; reflexivity.
Qed.

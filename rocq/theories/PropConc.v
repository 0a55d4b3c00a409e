(** C36-C39: threads sharing a world.  The vocabulary is that of
    SpecConc.v; [reaches w cs c]: some schedule leads the clients [cs],
    sharing the world [w], to the configuration [c]. *)
From Coq Require Import Sorting.Sorted.
From stdpp Require Import prelude list gmap.
From Verif Require Import Base Api ModelSparse ModelEntity ModelGroup ModelWorld ModelQuery ModelStep ModelConc SpecConc
  Spec History Rules Samples ProofSparse ProofWorld ProofMain ProofHistory PropEntity PropComp PropQuery PropGroup
  ProofWf PropSafe ProofTerm ProofConc ProofConc2 ProofConc3
  ProofConc4 ProofConc5 ProofConc6 ProofConc7 ProofConc8 ProofConc9 ProofConc10 ProofConc11.

Section conc.
Context {V : Type}.
Implicit Types (w : world V) (c : conf V) (cs : list (client V)).

(** * C36 *)

(** Whatever the threads do and however they are scheduled, two guards on the
    same lock are both shared: in different threads ... *)
Theorem C36_guards_exclude w cs c i j l x y : reaches w cs c -> i <> j ->
  guard_of c i (l, x) -> guard_of c j (l, y) -> x = false /\ y = false.
Proof.
  intros HR%reach_any Hij (ti & Hi & Hgi) (tj & Hj & Hgj).
  pose proof (excl_perm _ _ (locks_split c i ti Hi) (ci_excl _ _ _ c HR)) as He.
  eapply excl_app; [exact He|exact Hgi|]. by eapply in_others.
Qed.
(** ... and in the same one. *)
Theorem C36_same_thread w cs c i th l x y rest : reaches w cs c -> cf_threads c !! i = Some th ->
  th_holds th ≡ₚ (l, x) :: (l, y) :: rest -> x = false /\ y = false.
Proof.
  intros HR%reach_any Hi HP. pose proof (excl_perm _ _ (locks_split c i th Hi) (ci_excl _ _ _ c HR)) as He.
  apply (He l x y (rest ++ holds_of_others i (cf_threads c))). by rewrite HP.
Qed.
(** A step changes a storage (resource, group, the entity manager) only if the
    thread making it has an exclusive guard on it. *)
Theorem C36_writer w cs c i c' l : reaches w cs c -> cstep i c = Some c' ->
  part_eq l (cf_world c) (cf_world c') \/ guard_of c i (l, true).
Proof.
  intros HR%reach_any Hc. destruct (cf_threads c !! i) as [th|] eqn:Hi; [|unfold cstep in Hc; by rewrite Hi in Hc].
  destruct (decide ((l, true) ∈ th_holds th)) as [Hin|Hin]; [right; by exists th|left].
  by eapply step_frame.
Qed.
(** So while a thread has a guard, no other thread changes what is behind it, *)
Theorem C36_protected w cs c i j c' l x : reaches w cs c -> guard_of c i (l, x) -> i <> j -> cstep j c = Some c' ->
  part_eq l (cf_world c) (cf_world c').
Proof. intros HR%reach_any (th & Hi & Hg) Hij Hc. eapply step_protect; [done|by apply not_eq_sym|done|done|done]. Qed.
(** and while somebody has a shared guard nobody does, along whole runs. *)
Theorem C36_shared w cs c l sched c' : reaches w cs c -> run sched c = Some c' ->
  throughout (fun cm => exists i, guard_of cm i (l, false)) sched c -> part_eq l (cf_world c) (cf_world c').
Proof.
  revert c. induction sched as [|j sched IH]; intros c HR Hr HT; simpl in Hr; [injection Hr as <-; apply part_refl|].
  destruct (cstep j c) as [c1|] eqn:Ec; [|done].
  eapply part_trans; [|apply (IH c1); [by eapply reaches_step|done|by eapply throughout_tl]].
  destruct (throughout_hd _ _ _ HT) as [i Hg]. destruct (C36_writer w cs c j c1 l HR Ec) as [|Hw]; [done|].
  destruct (decide (i = j)) as [->|Hij].
  - destruct Hg as (th & Hi & Hg), Hw as (th' & Hi' & Hw). rewrite Hi in Hi'. injection Hi' as <-.
    apply elem_of_Permutation in Hg as [m Hm]. rewrite Hm in Hw. apply elem_of_cons in Hw as [[=]|Hw].
    apply elem_of_Permutation in Hw as [m' Hm']. rewrite Hm' in Hm.
    by destruct (C36_same_thread w cs c j th l false true m' HR Hi Hm).
  - exact (C36_protected w cs c i j c1 l false HR Hg Hij Ec).
Qed.
(** What a step does, to its thread and to what the thread has locked, depends
    on nothing but what the thread has locked: no data race.  ([w2] is any
    world that differs from the present one only behind locks the thread has
    no guard on.) *)
Theorem C36_no_race w cs c i c1 w2 : reaches w cs c -> cstep i c = Some c1 ->
  same_shape (cf_world c) w2 -> (forall l x, guard_of c i (l, x) -> part_eq l (cf_world c) w2) ->
  exists c2, cstep i (Cf w2 (cf_threads c)) = Some c2 /\ cf_threads c2 = cf_threads c1 /\
    forall l x, guard_of c i (l, x) -> part_eq l (cf_world c1) (cf_world c2).
Proof.
  intros HR%reach_any Hc Hs Ha. unfold cstep in *. simpl. destruct (cf_threads c !! i) as [th|] eqn:Hi; [|done].
  assert (forall l x, (l, x) ∈ th_holds th -> part_eq l (cf_world c) w2) as Ha'. { intros l x Hg. apply (Ha l x). by exists th. }
  assert (forall l x, guard_of c i (l, x) -> (l, x) ∈ th_holds th) as Hg.
  { intros l x (th' & Hi' & Hg). rewrite Hi in Hi'. by injection Hi' as <-. }
  pose proof (ci_thr _ _ _ c HR i th Hi) as Hw. unfold tstep in *. destruct th as [hs p]. simpl in *.
  destruct p as [a| | | |l x k|l x k|B lab f k]; try done.
  - destruct (conflict _ l x) eqn:Ec; [done|]. injection Hc as <-. eexists; split; [done|]. split; [done|]. intros l' x' H. simpl. by eapply Ha', Hg.
  - injection Hc as <-. eexists; split; [done|]. split; [done|]. intros l' x' H. simpl. by eapply Ha', Hg.
  - destruct Hw as [[Hcf _] _]. destruct (Hcf _ (ci_shape _ _ _ c HR)) as (_ & _ & H3). rewrite app_nil_r in H3.
    destruct (H3 w2 (conj Hs Ha')) as [E1 E2].
    destruct (f (cf_world c)) as [o w1] eqn:Ef1, (f w2) as [o2 w3] eqn:Ef2. simpl in *. subst o2.
    destruct o; injection Hc as <-; (eexists; split; [done|]; split; [done|]); intros l x H; simpl; by eapply E2, Hg.
Qed.
(** Types, groups and resources there are never change while a world is
    shared. *)
Theorem C36_shape w cs c : reaches w cs c -> same_shape w (cf_world c).
Proof. intros HR%reach_any. apply HR. Qed.

(** * C37 *)

(** While any thread has an [Entity] or [Entities] handle (or any other guard
    on the entity manager), no step of any other thread adds or removes an
    entity. *)
Lemma exist_em w1 w2 id : w_em w1 = w_em w2 -> (step (Exist id) w1).1 = (step (Exist id) w2).1.
Proof. intros E. cbn [step]. unfold fmapM, bind, get, lift, exist, ret. rewrite E. by destruct (em_has (w_em w2) id). Qed.
Theorem C37_entities_kept w cs c i sched c' : reaches w cs c -> run sched c = Some c' ->
  throughout (fun cm => guard_of cm i (LMan, false)) sched c ->
  w_em (cf_world c') = w_em (cf_world c) /\
  forall id, (step (Exist id) (cf_world c')).1 = (step (Exist id) (cf_world c)).1.
Proof.
  intros HR Hr HT. assert (w_em (cf_world c') = w_em (cf_world c)) as E.
  { symmetry. apply (C36_shared w cs c LMan sched c' HR Hr). intros pre post cm E1 E2. exists i. by apply (HT pre post cm). }
  split; [done|]. intros id. by apply exist_em.
Qed.
(** Which objects have it: a thread that keeps a handle has the guard. *)
Theorem C37_handle_guard id lo hi : obj_holds (V := V) (JEntity id) = [(LMan, false)] /\ obj_holds (V := V) (JEntities lo hi) = [(LMan, false)].
Proof. done. Qed.
(** A thread that has a guard on a lock and asks for the same lock exclusively
    never moves again. *)
Lemma cstep_self_stuck c i l x : wants c i l true -> guard_of c i (l, x) -> cstep i c = None.
Proof.
  intros (th & k & Hi & Hk) (th' & Hi' & Hg). rewrite Hi in Hi'. injection Hi' as <-. unfold cstep. rewrite Hi. unfold tstep. rewrite Hk.
  assert (conflict (th_holds th ++ holds_of_others i (cf_threads c)) l true = true) as ->; [|done].
  apply conflict_true. exists x. split; [apply elem_of_app; by left|by rewrite orb_true_r].
Qed.
Theorem C37_self_wait c i l x c' : wants c i l true -> guard_of c i (l, x) -> later c c' ->
  cf_threads c' !! i = cf_threads c !! i /\ cstep i c' = None.
Proof.
  intros Hw Hg [sched Hr]. revert c Hw Hg Hr. induction sched as [|j sched IH]; intros c Hw Hg Hr; simpl in Hr.
  - injection Hr as <-. split; [done|]. by eapply cstep_self_stuck.
  - destruct (cstep j c) as [c1|] eqn:Ec; [|done]. destruct (decide (j = i)) as [->|Hij].
    { rewrite (cstep_self_stuck c i l x Hw Hg) in Ec. done. }
    pose proof (step_other j i c c1 Hij Ec) as E. destruct (IH c1) as [E1 E2]; [| |done|].
    + destruct Hw as (th & k & Hi & Hk). exists th, k. by rewrite E.
    + destruct Hg as (th & Hi & Hk). exists th. by rewrite E.
    + split; [by rewrite E1|done].
Qed.
(** [create_entity], [create_entities] and [remove_entity] never return to a
    thread that keeps a handle, whatever other threads do.  ([remove_entity]
    may panic.) *)
Lemma never_returns w h o : (LMan, false) ∈ h -> needs (p_call o) -> forall r, ~ ends w h (p_call o) (Ret r).
Proof.
  intros Hin Hn r He.
  refine (needs_no_end w (p_call o) h [] h nolt False True (fun _ _ => True) Hin _ Hn _ id (Ret r) r He eq_refl); [done|].
  eapply wp_mono; [..|refine (wp_call w nolt False [] h o (fun _ _ => True) _ _)]; try done. by apply any_op.
Qed.
Theorem C37_no_create_under_handle w h n r : (LMan, false) ∈ h ->
  ~ ends w h (p_call CreateEntity) r /\ ~ ends w h (p_call (CreateEntities n)) r.
Proof.
  intros Hin. assert (conflict h LMan true = true) as E by (apply conflict_true; by exists false).
  split; cbn [p_call]; simpl; by rewrite E; intros [? _].
Qed.
Theorem C37_no_remove_under_handle w h id ord r : (LMan, false) ∈ h -> ~ ends w h (p_call (RemoveEntity id ord)) (Ret r).
Proof.
  intros Hin. apply never_returns; [done|]. cbn [p_call]. apply needs_bind_l, needs_remove.
Qed.

(** * C38 *)

(** Nobody who sticks to an order deadlocks.  The order: the entity manager
    first, storages in the order of [rank], which must agree with the order of
    types in the groups; one object kept at a time (calls may be made next to
    an entity handle).  Either no group is queried, or groups are queried and
    grouped types not attached, detached and no entity is removed meanwhile
    ([gq]).  Then in every configuration reached, unless every thread is
    through or one ran into undefined behaviour, some thread can move - even
    if locks are granted only when nobody at all has them ([can_move]).
    Missing from C38: threads not sticking to this, for which it is false
    (below). *)
Theorem C38_ordered_partial rank gq w cs c : groups_in_order rank w -> Forall (tidy rank gq w None) cs -> reaches w cs c ->
  (forall i th, cf_threads c !! i = Some th -> finished c i) \/ (exists i, crashed c i) \/ exists i, can_move c i.
Proof.
  intros Hg Hcs [sched Hr]. eapply (no_deadlock w (llt rank gq) False (llt_irr rank gq) (llt_trans rank gq)).
  eapply run_cinv; [|done|exact Hr]. apply start_cinv; [done|]. eapply Forall_impl; [exact Hcs|].
  intros cl Ht. eapply tidy_client; [exact Hg| |exact Ht]. done.
Qed.
Theorem C38_never_deadlocked_partial rank gq w cs c : groups_in_order rank w -> Forall (tidy rank gq w None) cs -> reaches w cs c ->
  (forall i, ~ crashed c i) -> ~ deadlocked c.
Proof.
  intros Hg Hcs HR HC [Hs (i & th & Hi & Hf & _)]. destruct (C38_ordered_partial rank gq w cs c Hg Hcs HR) as [H|[[j H]|[j [[c' H] _]]]].
  - by eapply Hf, H.
  - by eapply HC.
  - by rewrite Hs in H.
Qed.
(** Every run comes to an end (clients have no loops that go on forever, and
    no call has one either), *)
Theorem C38_runs_end c : Acc (fun c' c => exists i, cstep i c = Some c') c.
Proof. apply runs_end. Qed.
(** so if such threads are scheduled as long as anybody can move, all of them
    finish, having released all their locks. *)
Theorem C38_all_finish_partial rank gq w cs c : groups_in_order rank w -> Forall (tidy rank gq w None) cs -> reaches w cs c ->
  exists c', later c c' /\ (forall i, cstep i c' = None) /\
    ((exists i, crashed c' i) \/ forall i th, cf_threads c' !! i = Some th -> finished c' i).
Proof.
  intros Hg Hcs. pose proof (runs_end c) as HA. induction HA as [c _ IH]. intros HR.
  destruct (decide (Exists (fun i => is_Some (cstep i c)) (seq 0 (length (cf_threads c))))) as [He|Hn].
  - apply Exists_exists in He as (i & _ & [c1 Ec]). destruct (IH c1) as (c' & [s Hs] & H); [by exists i|by eapply reaches_step|].
    exists c'. split; [|done]. exists (i :: s). simpl. by rewrite Ec.
  - assert (forall i, cstep i c = None) as Hno.
    { intros i. destruct (cstep i c) as [c1|] eqn:Ec; [|done]. exfalso. apply Hn, Exists_exists. exists i. split; [|by rewrite Ec].
      apply elem_of_seq. split; [lia|]. apply lookup_lt_is_Some. unfold cstep in Ec. destruct (cf_threads c !! i); [done|by inversion Ec]. }
    exists c. split; [by exists []|]. split; [done|].
    destruct (C38_ordered_partial rank gq w cs c Hg Hcs HR) as [H|[H|[j [[c' H] _]]]]; [by right|by left|]. by rewrite Hno in H.
Qed.

(** * C39 *)

(** Start from a history without batch attach onto existing components and
    without group queries, run any number of threads that do the same under
    any schedule: nobody ever runs into undefined behaviour, *)
Lemma fresh_cinv w cs c : good w -> Forall plain_client cs -> reaches_fresh w cs c -> cinv w nolt True c.
Proof.
  intros G Hp (sched & Hr & Hf).
  assert (cinv w nolt True (start w cs)) as H0.
  { apply start_cinv; [done|]. eapply Forall_impl; [exact Hp|]. intros cl Hcl. by apply any_client. }
  remember (start w cs) as c0 eqn:E0. clear E0. revert c0 H0 Hr Hf.
  induction sched as [|i sched IH]; intros c0 H0 Hr Hf; simpl in Hr; [by injection Hr as <-|].
  destruct (cstep i c0) as [c1|] eqn:Ec; [|done]. apply (IH c1); [|done|].
  - eapply cstep_cinv; [exact H0| |exact Ec]. intros _ th lab Hi Hl. specialize (Hf [] i sched c0 eq_refl eq_refl).
    destruct lab as [| |n|id|t id v|t lo hi vs|t id|t id|j id|j id|j id| |o]; try done.
    intros id st Hid Hst. assert (did i c0 = Some (BBatch t lo hi vs)) as Hd by (unfold did; by rewrite Hi).
    specialize (Hf t lo hi vs id Hd Hid). pose proof (ci_good _ _ _ c0 H0 I) as G0. rewrite (shows_wvalue _ t id G0) in Hf.
    unfold wvalue in Hf. rewrite Hst in Hf. destruct (ss_exist (st_set st) id) eqn:E; [|done].
    destruct (gd_st _ G0 t st Hst) as [_ Wf]. apply (exist_lookup _ id Wf) in E. rewrite Hf in E. by destruct E.
  - intros pre j post cm -> Hpre. apply (Hf (i :: pre) j post cm); [done|]. simpl. by rewrite Ec.
Qed.
Theorem C39_no_crash_partial ops cs c : batches_fresh ops -> Forall (fun o => plain_call o = true) ops ->
  Forall plain_client cs -> reaches_fresh (after ops) cs c -> forall i, ~ crashed c i.
Proof.
  intros H1 H2 Hp HR i (th & Hi & Hu). destruct (tame_good ops H1 H2) as [G _]. pose proof (fresh_cinv _ _ _ G Hp HR) as HI.
  pose proof (ci_thr _ _ _ c HI i th Hi) as Hw. rewrite Hu in Hw. by apply Hw.
Qed.
(** nothing a thread could call on the world it finds is undefined behaviour, *)
Theorem C39_calls_safe_partial ops cs c o : batches_fresh ops -> Forall (fun o => plain_call o = true) ops ->
  Forall plain_client cs -> reaches_fresh (after ops) cs c ->
  plain_call o = true -> (forall lo hi t vs, o <> BatchAttach lo hi t vs) -> (step o (cf_world c)).1 <> UB.
Proof.
  intros H1 H2 Hp HR Ho Hb. destruct (tame_good ops H1 H2) as [G _]. pose proof (fresh_cinv _ _ _ G Hp HR) as HI.
  apply good_step; [by apply HI|]. destruct o; try done. by destruct (Hb lo hi t vs).
Qed.
(** and each step does to the values of components what it is meant to do and
    nothing else: [work_on] says for every component of every entity what a
    reader sees before and after the step. *)
Theorem C39_values_partial ops cs c i c' : batches_fresh ops -> Forall (fun o => plain_call o = true) ops ->
  Forall plain_client cs -> reaches_fresh (after ops) cs c -> fresh_step i c -> cstep i c = Some c' ->
  forall t id, match did i c with
    | Some lab => work_on (cf_world c) lab t id (shows (cf_world c) t id) (shows (cf_world c') t id)
    | None => shows (cf_world c') t id = shows (cf_world c) t id
    end.
Proof.
  intros H1 H2 Hp HR Hf Hc t id. destruct (tame_good ops H1 H2) as [G _].
  pose proof (fresh_cinv _ _ _ G Hp HR) as HI.
  assert (reaches_fresh (after ops) cs c') as HR'.
  { destruct HR as (s & Hs & Hfs). exists (s ++ [i]). split; [by eapply run_snoc|].
    intros pre j post cm E Hpre. destruct (decide (post = [])) as [->|Hn].
    - apply app_inj_tail in E as [<- <-]. rewrite Hs in Hpre. by injection Hpre as <-.
    - destruct post as [|a post _] using rev_ind; [done|]. rewrite app_comm_cons, app_assoc in E. apply app_inj_tail in E as [E _].
      by apply (Hfs pre j post cm). }
  pose proof (fresh_cinv _ _ _ G Hp HR') as HI'.
  pose proof (ci_good _ _ _ c HI I) as G0. pose proof (ci_good _ _ _ c' HI' I) as G1.
  destruct (did i c) as [lab|] eqn:Ed; [|by rewrite (cstep_quiet i c c' Ed Hc)].
  rewrite (shows_wvalue _ _ _ G0), (shows_wvalue _ _ _ G1).
  destruct (cstep_piece _ _ _ i c c' lab HI Ed Hc) as (th & Hi & Hm & _).
  eapply moves_values; [done|done| |exact Hm].
  destruct lab as [| |n|id0|t0 id0 v|t0 lo hi vs|t0 id0|t0 id0|j id0|j id0|j id0| |o]; try done.
  intros id1 st Hid Hst. specialize (Hf t0 lo hi vs id1 Ed Hid). rewrite (shows_wvalue _ t0 id1 G0) in Hf.
  unfold wvalue in Hf. rewrite Hst in Hf. destruct (ss_exist (st_set st) id1) eqn:E; [|done].
  destruct (gd_st _ G0 t0 st Hst) as [_ Wf]. apply (exist_lookup _ id1 Wf) in E. rewrite Hf in E. by destruct E.
Qed.

End conc.

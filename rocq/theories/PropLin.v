(** C46, C43: calls made by several threads, one after the other.  The
    vocabulary is in SpecConc.v ([calm_client], [made], [rest], [by_thread],
    [follow]); [seen ops]: the calls [ops] made one after the other on a new
    world, each with its answer; [after ops]: the world they leave. *)
From stdpp Require Import prelude list gmap.
From Verif Require Import Base Api ModelSparse ModelEntity ModelGroup ModelWorld ModelQuery ModelStep ModelConc SpecConc
  Spec History Rules Samples ProofSparse ProofEntity ProofWorld ProofMain ProofHistory PropEntity ProofConc ProofConc8 ProofConc10 ProofConc11
  ProofLin ProofLin2 ProofEm PropConc2.

Section lin.
Context {V : Type}.
Local Notation event := (op V * outcome (out V))%type.
Implicit Types (cs : list (client V)) (c : conf V).

Lemma rules_em ops : rules (V := V) ops -> em_ok (after ops).
Proof. intros L. destruct (reached ops L) as [H _]. eexists _, _. apply H. Qed.
Lemma seqrun_seen ops (e : list event) w' : seqrun (after ops) e w' -> w' = after (ops ++ e.*1) /\ seen (ops ++ e.*1) = seen ops ++ e.
Proof. intros [H1 H2]. split; [unfold after; by rewrite exec_app|]. unfold seen. rewrite trace_app. by f_equal. Qed.
Lemma made_rest cl (l : list event) o k r : made cl l -> rest cl l = Call o k -> made cl (l ++ [(o, r)]).
Proof. intros H1 H2. by destruct (made_snoc cl l o k r H1 H2). Qed.

(** From any world whose entity manager is in order. *)
Lemma linear (w0 : world V) cs sched c : em_ok w0 -> Forall (calm_client w0) cs ->
  run sched (start w0 cs) = Some c ->
  exists evs : list (list event), length evs = length sched /\
  forall n cn, n <= length sched -> run (take n sched) (start w0 cs) = Some cn ->
    let h := concat (take n evs) in
    seqrun w0 h (cf_world cn) /\
    forall i cl, cs !! i = Some cl ->
      let mine := by_thread i (take n sched) (take n evs) in
      let '(got, now) := follow i (enter cl) (take n sched) (start w0 cs) in
      made cl mine /\
      (mine = got \/ exists o r, mine = got ++ [(o, r)] /\ match now with Busy o' _ _ _ | Unwinding o' _ _ => o' = o | Idle => False end) /\
      (finished cn i -> mine = got /\ rest cl got = Done).
Proof.
  intros L Hcs Hr. destruct (inv_run w0 cs Hcs L sched c Hr) as (evs & Hl & H).
  exists evs. split; [done|]. intros n cn Hn Hrn. destruct (H n cn Hn Hrn) as [_ [Hs Ht]]. cbn zeta.
  split; [done|]. intros i cl Hi. destruct (Ht i cl Hi) as (th & l & Hth & Hby & (Hm & Hc & Hph) & Hpr).
  destruct (follow i (enter cl) (take n sched) (start w0 cs)) as [got now]. cbn [fst snd] in *. rewrite Hby.
  assert (finished cn i -> now = Idle) as Hfin.
  { intros (th' & Hth' & Hp' & _). rewrite Hth in Hth'. injection Hth' as <-. rewrite Hp' in Hpr. destruct now as [|o k m p|o k hs]; [done|..]; exfalso.
    - destruct Hph as [Hrun _]. pose proof (running_catch p m (fun r _ => compile [] (k r)) Hrun) as Hx. cbn [prog_of] in Hpr. by rewrite <- Hpr in Hx.
    - destruct Hph as [Hne _]. destruct hs as [|[]]; [done|]. cbn [prog_of rels] in Hpr. done. }
  destruct now as [|o k m p|o k hs].
  - destruct Hph as [-> Hd]. rewrite app_nil_r. split; [done|]. split; [by left|]. done.
  - destruct Hph as (_ & Hrest & st & ids & u & Hpe & _). destruct Hpe as [[_ ->]|(r & _ & ->)].
    + rewrite app_nil_r. split; [done|]. split; [by left|]. intros Hf. by specialize (Hfin Hf).
    + split; [by eapply made_rest|]. split; [right; by exists o, r|]. intros Hf. by specialize (Hfin Hf).
  - destruct Hph as (_ & Hrest & ->). split; [by eapply made_rest|]. split; [right; by exists o, Panic|]. intros Hf. by specialize (Hfin Hf).
Qed.

(** C46.  Threads make calm calls (anything but [remove_entity] and attaching
    or detaching grouped types, see SpecConc.v) on a shared world with any
    history; which call a thread makes next may depend on the answers it got.
    For every schedule the calls can be put in a sequence ([evs]: those
    placed at each step of the schedule) such that at every point:
    - the shared world is what the calls placed so far leave when made one
      after the other, and each of them answers what it answers then;
    - each thread's calls are among them in the thread's order: all those
      that have returned to it, with the answers it got ([(follow ..).1]),
      and perhaps the one it is making.
    So each call takes effect at one moment between its beginning and its
    return. *)
Theorem C46_linearizable ops cs sched c : rules ops -> Forall (calm_client (after ops)) cs ->
  run sched (start (after ops) cs) = Some c ->
  exists evs : list (list event), length evs = length sched /\
  forall n cn, n <= length sched -> run (take n sched) (start (after ops) cs) = Some cn ->
    let h := concat (take n evs) in
    cf_world cn = after (ops ++ h.*1) /\ seen (ops ++ h.*1) = seen ops ++ h /\
    forall i cl, cs !! i = Some cl ->
      let mine := by_thread i (take n sched) (take n evs) in
      let '(got, now) := follow i (enter cl) (take n sched) (start (after ops) cs) in
      made cl mine /\
      (mine = got \/ exists o r, mine = got ++ [(o, r)] /\ match now with Busy o' _ _ _ | Unwinding o' _ _ => o' = o | Idle => False end) /\
      (finished cn i -> mine = got /\ rest cl got = Done).
Proof.
  intros L Hcs Hr. destruct (linear (after ops) cs sched c (rules_em ops L) Hcs Hr) as (evs & Hl & H).
  exists evs. split; [done|]. intros n cn Hn Hrn. destruct (H n cn Hn Hrn) as [Hs Ht]. cbn zeta in *.
  destruct (seqrun_seen _ _ _ Hs) as [E1 E2]. done.
Qed.
(** [follow] does follow the threads: what it says is left to do is what the
    thread has left to do. *)
Theorem C46_follows ops cs sched c i cl : rules ops -> Forall (calm_client (after ops)) cs ->
  run sched (start (after ops) cs) = Some c -> cs !! i = Some cl ->
  exists th, cf_threads c !! i = Some th /\ th_prog th = prog_of (follow i (enter cl) sched (start (after ops) cs)).2.
Proof.
  intros L Hcs Hr Hi. destruct (inv_run (after ops) cs Hcs (rules_em ops L) sched c Hr) as (evs & Hl & H).
  destruct (H (length sched) c) as [_ [_ Ht]]; [done|by rewrite take_ge|]. rewrite (take_ge sched) in Ht by done.
  destruct (Ht i cl Hi) as (th & l & Hth & _ & _ & Hpr). by exists th.
Qed.

(** * C43 *)

(** The calls a thread got answers to. *)
Definition got (ops : list (op V)) cs sched (i : nat) : list event :=
  match cs !! i with Some cl => (follow i (enter cl) sched (start (after ops) cs)).1 | None => [] end.

Lemma by_thread_sub {A} i sched (evs : list (list A)) : by_thread i sched evs ⊆+ concat evs.
Proof.
  revert evs. induction sched as [|j sched IH]; intros [|e evs]; cbn; try apply submseteq_nil_l.
  destruct (decide (j = i)); cbn; [by apply submseteq_app|]. etrans; [apply IH|]. by apply submseteq_inserts_l.
Qed.
Lemma by_thread_sub2 {A} i j sched (evs : list (list A)) : i <> j -> by_thread i sched evs ++ by_thread j sched evs ⊆+ concat evs.
Proof.
  intros Hij. revert evs. induction sched as [|a sched IH]; intros [|e evs]; cbn; try apply submseteq_nil_l.
  specialize (IH evs). destruct (decide (a = i)), (decide (a = j)); cbn; try (by subst).
  - rewrite <- app_assoc. by apply submseteq_app.
  - rewrite app_assoc, (Permutation_app_comm _ e), <- app_assoc. by apply submseteq_app.
  - etrans; [apply IH|]. by apply submseteq_inserts_l.
Qed.
Lemma bind_sub (f : event -> list nat) (l l' : list event) : l ⊆+ l' -> (l ≫= f) ⊆+ (l' ≫= f).
Proof.
  intros [k Hk]%submseteq_Permutation. rewrite Hk, bind_app. by apply submseteq_inserts_r.
Qed.
Lemma sub_NoDup {A} (l l' : list A) : l ⊆+ l' -> NoDup l' -> NoDup l.
Proof. intros [k Hk]%submseteq_Permutation. rewrite Hk. by intros [? _]%NoDup_app. Qed.
Lemma calm_made w cl l : calm_client w cl -> made cl l -> Forall removes_nothing (l : list event).*1.
Proof.
  revert cl. induction l as [|[o r] l IH]; intros cl Hc Hm; [by constructor|]. destruct cl; try done. destruct Hm as [-> Hm], Hc as [Ho Hk]. simpl.
  constructor; [by destruct o|]. by eapply IH.
Qed.
Lemma in_by_thread {A} (x : A) sched evs : length evs = length sched -> x ∈ concat evs -> exists i, x ∈ by_thread i sched evs /\ i ∈ sched.
Proof.
  revert evs. induction sched as [|j sched IH]; intros [|e evs] Hl Hx; try done; cbn in *; [by apply elem_of_nil in Hx|].
  apply elem_of_app in Hx as [Hx|Hx].
  - exists j. rewrite decide_True by done. split; [apply elem_of_app; by left|left].
  - destruct (IH evs) as (i & Hi & Hs); [lia|done|]. exists i. split; [apply elem_of_app; by right|by right].
Qed.
Lemma sched_lt sched c c' i : run sched c = Some c' -> i ∈ sched -> i < length (cf_threads c).
Proof.
  revert c. induction sched as [|j sched IH]; intros c Hr Hi; [by apply elem_of_nil in Hi|]. cbn in Hr. destruct (cstep j c) as [c1|] eqn:E; [|done].
  assert (length (cf_threads c1) = length (cf_threads c) /\ j < length (cf_threads c)) as [El Hj].
  { unfold cstep in E. destruct (cf_threads c !! j) eqn:Ej; [|done]. destruct (tstep _ _ _) as [[t' w']|]; [|done]. injection E as <-. simpl.
    split; [by rewrite insert_length|by eapply lookup_lt_Some]. }
  apply elem_of_cons in Hi as [->|Hi]; [done|]. rewrite <- El. by apply IH.
Qed.

Definition gotw (w0 : world V) cs sched (i : nat) : list event :=
  match cs !! i with Some cl => (follow i (enter cl) sched (start w0 cs)).1 | None => [] end.
Lemma linear_ids (w0 : world V) cs sched c : em_ok w0 -> Forall (calm_client w0) cs ->
  run sched (start w0 cs) = Some c ->
  (forall i, Forall created_ok (gotw w0 cs sched i) /\ NoDup (gotw w0 cs sched i ≫= handed_ev) /\
     forall id, id ∈ gotw w0 cs sched i ≫= handed_ev -> id <> 0 /\ id ∉ ents (w_em w0) /\ (step (Exist id) (cf_world c)).1 = Ret (OBool true)) /\
  forall i j id, i <> j -> id ∈ gotw w0 cs sched i ≫= handed_ev -> id ∉ gotw w0 cs sched j ≫= handed_ev.
Proof.
  intros L Hcs Hr. destruct (linear w0 cs sched c L Hcs Hr) as (evs & Hl & H).
  destruct (H (length sched) c) as ((Hex & Htr) & Ht); [done|by rewrite take_ge|]. rewrite (take_ge sched) in Ht by done. rewrite take_ge in Hex, Htr, Ht by lia.
  set (h := concat evs) in *.
  assert (forall i, gotw w0 cs sched i ⊆+ by_thread i sched evs) as Hsub.
  { intros i. unfold gotw. destruct (cs !! i) as [cl|] eqn:Ei; [|apply submseteq_nil_l]. specialize (Ht i cl Ei). cbn zeta in Ht.
    destruct (follow i (enter cl) sched (start w0 cs)) as [g now]. cbn [fst]. destruct Ht as (_ & [->|(o & r & -> & _)] & _); [done|]. by apply submseteq_inserts_r. }
  assert (Forall removes_nothing h.*1) as Hrm.
  { apply Forall_fmap, Forall_forall. intros ev Hin. destruct (in_by_thread ev sched evs Hl Hin) as (i & Hi & His).
    pose proof (sched_lt _ _ _ _ Hr His) as Hlt. unfold start in Hlt. simpl in Hlt. rewrite map_length in Hlt. apply lookup_lt_is_Some in Hlt as [cl Hcl].
    specialize (Ht i cl Hcl). cbn zeta in Ht. destruct (follow i (enter cl) sched (start w0 cs)) as [g now]. destruct Ht as (Hm & _).
    assert (Forall removes_nothing (by_thread i sched evs).*1) as HF by (eapply calm_made; [eapply Forall_lookup_1; [exact Hcs|exact Hcl]|done]).
    rewrite Forall_fmap, Forall_forall in HF. by apply (HF ev). }
  destruct L as (n0 & free0 & Hem0). destruct (seq_ids h.*1 w0 _ _ Hem0 Hrm) as ((n' & free' & Hem) & Hen & Hok). rewrite Htr, Hex in *.
  pose proof (er_nodup _ _ _ Hem) as Hnd. rewrite Hen in Hnd. apply NoDup_app in Hnd as (Hnd & _ & _). apply NoDup_app in Hnd as (_ & Hdis & Hnd).
  split.
  - intros i. assert (gotw w0 cs sched i ⊆+ h) as Hgh by (etrans; [apply Hsub|apply by_thread_sub]). split.
    { apply Forall_forall. intros ev Hin. rewrite Forall_forall in Hok. apply Hok. by eapply elem_of_submseteq. }
    split; [eapply sub_NoDup; [|exact Hnd]; by apply bind_sub|].
    intros id Hid. assert (id ∈ h ≫= handed_ev) as Hid' by (eapply elem_of_submseteq; [exact Hid|by apply bind_sub]).
    assert (id ∈ ents (w_em (cf_world c))) as Hie by (rewrite Hen; apply elem_of_app; by right).
    assert (1 <= id <= n') as Hb by (apply (er_elem _ _ _ id Hem); by left). split; [lia|]. split.
    + intros Hal. by eapply Hdis.
    + pose proof (em_known (cf_world c) id) as Hex'. cbn [step]. unfold fmapM, bind, get, lift, ret. rewrite Hex'; [done|by eexists _, _|done].
  - intros i j id Hij Hi Hj.
    assert ((gotw w0 cs sched i ++ gotw w0 cs sched j) ⊆+ h) as Hs2. { etrans; [apply submseteq_app; apply Hsub|]. by apply by_thread_sub2. }
    apply (bind_sub handed_ev) in Hs2. rewrite bind_app in Hs2. apply (sub_NoDup _ _ Hs2) in Hnd. apply NoDup_app in Hnd as (_ & Hd & _). by apply (Hd id).
Qed.

(** As long as nobody removes entities, [create_entity] and [create_entities]
    return (never panic) and every id they return, to whatever thread, is
    non-zero, was not alive before, is returned once, and is alive.
    Missing from C43: threads removing entities, for which it is false
    (PropConc2.v). *)
Theorem C43_no_remove_partial ops cs sched c : rules ops -> Forall (calm_client (after ops)) cs ->
  run sched (start (after ops) cs) = Some c ->
  (forall i, Forall created_ok (got ops cs sched i) /\ NoDup (got ops cs sched i ≫= handed_ev) /\
     forall id, id ∈ got ops cs sched i ≫= handed_ev -> id <> 0 /\ id ∉ alive (seen ops) /\ (step (Exist id) (cf_world c)).1 = Ret (OBool true)) /\
  forall i j id, i <> j -> id ∈ got ops cs sched i ≫= handed_ev -> id ∉ got ops cs sched j ≫= handed_ev.
Proof.
  intros L Hcs Hr. destruct (reached ops L) as [HR HA]. destruct (linear_ids (after ops) cs sched c (rules_em ops L) Hcs Hr) as [H1 H2].
  split; [|exact H2]. intros i. destruct (H1 i) as (A1 & A2 & A3). split; [exact A1|]. split; [exact A2|]. intros id Hid.
  destruct (A3 id Hid) as (B1 & B2 & B3). split; [done|]. split; [|done]. rewrite (ag_alive _ _ HA). intros Hal.
  assert (id ∈ ents (w_em (after ops)) \/ id ∈ a_free (aexec ops a_init)) as [|Hf]; [|done|].
  { apply (er_elem _ _ _ id (R_em _ _ HR)). unfold live in Hal. destruct Hal as [Hal _]. exact Hal. }
  unfold live in Hal. by destruct Hal.
Qed.
End lin.

(** The hypotheses are met by threads iterating a group, writing, creating
    entities and attaching to them, taking turns at every step. *)
Fixpoint robin {V} (n : nat) (c : conf V) : list nat :=
  match n with
  | 0 => []
  | S n' =>
      let m := length (cf_threads c) in
      match find (fun i => negb (stays i c)) (map (fun i => (i + n) mod m) (seq 0 m)) with
      | Some i => match cstep i c with Some c' => i :: robin n' c' | None => [] end
      | None => []
      end
  end.
Definition calm_cs : list (client nat) :=
  let maker := Call CreateEntity (fun r => match r with Ret (OId n) => Call (Attach 3 n n) (fun _ => Call (ReadComp 3 n) (fun _ => Done)) | _ => Done end) in
  [ maker; Call (Query (QGroup KFull true true 1 2)) (fun _ => Done);
    Call (QueryMut (QGroup KFull true true 1 2) (fun _ _ v => S v)) (fun _ => Done); maker;
    Call (CreateEntities 2) (fun _ => Done); Call (Detach 3 1) (fun _ => Done) ].
Example C46_case : rules grouped_and_3 /\ Forall (calm_client (after grouped_and_3)) calm_cs /\
  exists sched, runs sched (start (after grouped_and_3) calm_cs) = true /\
    all_done (at_end sched (start (after grouped_and_3) calm_cs)) = true /\
    map (fun i => got grouped_and_3 calm_cs sched i ≫= handed_ev) [0; 1; 3; 4] = [[6]; []; [5]; [3; 4]].
Proof.
  split; [check_rules|]. split.
  { assert (forall i k a b, group_head i (after grouped_and_3) = Some (k, a, b) -> k = KFull /\ a = 1 /\ b = 2) as HG.
    { intros i k a b H. assert (i = 0) as ->. { destruct i; [done|]. vm_compute in H. by destruct i. } vm_compute in H. by injection H as <- <- <-. }
    assert (ungrouped (after grouped_and_3) 3) as HU by (intros i k a b (-> & -> & ->)%HG; lia).
    apply Forall_forall. intros cl Hin. repeat (apply elem_of_cons in Hin as [->|Hin]); [..|by apply elem_of_nil in Hin]; cbn [calm_client calm].
    1, 4: split; [done|]; intros [[]| | |]; cbn [calm_client calm]; done.
    1, 2, 3: done.
    split; [exact HU|done]. }
  assert (exists s, s = robin 1000 (start (after grouped_and_3) calm_cs)) as [s E] by by eexists. vm_compute in E.
  exists s. rewrite E. split; [vm_compute; reflexivity|]. split; vm_compute; reflexivity.
Qed.

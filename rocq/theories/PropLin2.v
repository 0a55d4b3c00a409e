(** C46 and C43 after any history, and during the life of a world (C54). *)
From stdpp Require Import prelude list gmap.
From Verif Require Import Base Api ModelSparse ModelEntity ModelGroup ModelWorld ModelQuery ModelStep ModelConc SpecConc ModelLife
  Spec History Rules ProofSparse ProofEntity ProofWorld ProofMain ProofHistory PropEntity ProofConc ProofConc8 ProofConc10 ProofConc11
  ProofLin ProofLin2 ProofEm PropConc2 SpecLoose PropLoose PropLooseEnt PropLin SpecLife PropLife PropLife2.

Section lin.
Context {V : Type}.
Local Notation event := (op V * outcome (out V))%type.
Implicit Types (cs : list (client V)) (c : conf V) (ops : list (op V)) (acts : list (action V)).

Lemma em_same (w w' : world V) : w_em w = w_em w' -> em_ok w' -> em_ok w.
Proof. unfold em_ok. by intros ->. Qed.
Lemma tidy_em ops : SpecLoose.tidy ops -> em_ok (after ops).
Proof. intros (ops' & L & _ & _ & He & _)%shadow. eapply em_same; [exact He|]. by apply rules_em. Qed.

(** C46 after any history that did not remove the longest waiting removed id
    (C15): components and groups may be in any state, also after panics. *)
Theorem C46_any_history ops cs sched c : SpecLoose.tidy ops -> Forall (calm_client (after ops)) cs ->
  run sched (start (after ops) cs) = Some c ->
  exists evs : list (list event), length evs = length sched /\
  forall n cn, n <= length sched -> run (take n sched) (start (after ops) cs) = Some cn ->
    let h := concat (take n evs) in
    cf_world cn = after (ops ++ h.*1) /\ seen (ops ++ h.*1) = seen ops ++ h /\
    forall i cl, cs !! i = Some cl ->
      let mine := by_thread i (take n sched) (take n evs) in
      let '(got, now) := follow i (enter cl) (take n sched) (start (after ops) cs) in
      made cl mine /\
      (mine = got \/ exists o r, mine = got ++ [(o, r)] /\ match now with Busy o' _ _ _ | Unwinding o' _ _ => o' = o | Idle => False end) /\
      (finished cn i -> mine = got /\ rest cl got = Done).
Proof.
  intros T Hcs Hr. destruct (linear (after ops) cs sched c (tidy_em ops T) Hcs Hr) as (evs & Hl & H).
  exists evs. split; [done|]. intros n cn Hn Hrn. destruct (H n cn Hn Hrn) as [Hs Ht]. cbn zeta in *.
  destruct (seqrun_seen _ _ _ Hs) as [E1 E2]. done.
Qed.
(** and C43. *)
Lemma alive_ents ops id : SpecLoose.tidy ops -> id ∈ alive (seen ops) -> id ∈ ents (w_em (after ops)).
Proof.
  intros (ops' & L & _ & _ & He & (Ha & _) & _)%shadow. rewrite Ha, He. destruct (reached ops' L) as [HR HA]. rewrite (ag_alive _ _ HA). intros Hal.
  assert (id ∈ ents (w_em (after ops')) \/ id ∈ a_free (aexec ops' a_init)) as [|Hf]; [|done|].
  { apply (er_elem _ _ _ id (R_em _ _ HR)). unfold live in Hal. destruct Hal as [Hal _]. exact Hal. }
  unfold live in Hal. by destruct Hal.
Qed.
Theorem C43_any_history_partial ops cs sched c : SpecLoose.tidy ops -> Forall (calm_client (after ops)) cs ->
  run sched (start (after ops) cs) = Some c ->
  (forall i, Forall created_ok (got ops cs sched i) /\ NoDup (got ops cs sched i ≫= handed_ev) /\
     forall id, id ∈ got ops cs sched i ≫= handed_ev -> id <> 0 /\ id ∉ alive (seen ops) /\ (step (Exist id) (cf_world c)).1 = Ret (OBool true)) /\
  forall i j id, i <> j -> id ∈ got ops cs sched i ≫= handed_ev -> id ∉ got ops cs sched j ≫= handed_ev.
Proof.
  intros T Hcs Hr. destruct (linear_ids (after ops) cs sched c (tidy_em ops T) Hcs Hr) as [H1 H2].
  split; [|exact H2]. intros i. destruct (H1 i) as (A1 & A2 & A3). split; [exact A1|]. split; [exact A2|]. intros id Hid.
  destruct (A3 id Hid) as (B1 & B2 & B3). split; [done|]. split; [|done]. intros Hal. by apply B2, alive_ents.
Qed.

(** During the life of a world: let the threads that entered since the last
    exclusive call (which left [s0]) make calm calls.  At every moment the
    world is what some sequence of calls makes of [s0]'s world, each answering
    what it answers there, in which each thread's calls are those that
    returned to it, in its order and with the answers it got, and perhaps the
    one it is making. *)
Theorem C54_linearizable acts0 acts s0 s : neat acts0 -> lived acts0 born = Some s0 -> lf_users s0 = [] ->
  Forall (fun a => exclusive a = false) acts -> lived acts s0 = Some s -> Forall (calm_client (lf_world s0)) (entered acts) ->
  exists evs : list (list event), length evs = length (moved acts) /\
    let h := concat evs in
    exec h.*1 (lf_world s0) = lf_world s /\ trace h.*1 (lf_world s0) = h /\
    forall i cl, entered acts !! i = Some cl ->
      let mine := by_thread i (moved acts) evs in
      let '(got, now) := follow i (enter cl) (moved acts) (start (lf_world s0) (entered acts)) in
      made cl mine /\
      (mine = got \/ exists o r, mine = got ++ [(o, r)] /\ match now with Busy o' _ _ _ | Unwinding o' _ _ => o' = o | Idle => False end) /\
      (finished (conf_of s) i -> mine = got /\ rest cl got = Done).
Proof.
  intros N H0 Hu He H Hc. pose proof (phase_run acts s0 s Hu He H) as Hr. destruct (life_ids acts0 s0 N H0) as (L & _ & Hem).
  assert (em_ok (lf_world s0)) as Hok. { eapply em_same; [exact Hem|]. by apply rules_em. }
  destruct (linear (lf_world s0) (entered acts) (moved acts) (conf_of s) Hok Hc Hr) as (evs & Hl & K).
  exists evs. split; [done|]. destruct (K (length (moved acts)) (conf_of s)) as ((E1 & E2) & Ht); [done|by rewrite take_ge|].
  rewrite (take_ge (moved acts)) in Ht by done. rewrite take_ge in E1, E2, Ht by lia. done.
Qed.
End lin.

(** Two threads make an entity each and attach to it an ungrouped type. *)
Definition maker3 : client nat :=
  Call CreateEntity (fun r => match r with Ret (OId n) => Call (Attach 3 n (10 * n)) (fun _ => Call (ReadComp 3 n) (fun _ => Done)) | _ => Done end).
Definition start3 : list (action nat) := take 3 a_life ++ [Do (Register 3)].
Definition two_makers : list (action nat) :=
  [Enter maker3; Enter maker3] ++ map Move (robin 40 (start (lf_world (lf_at start3)) [maker3; maker3])).
Example C54_linearizable_case : neat start3 /\ lived start3 born = Some (lf_at start3) /\ lf_users (lf_at start3) = [] /\
  Forall (fun a => exclusive a = false) two_makers /\ lived two_makers (lf_at start3) = Some (lf_at (start3 ++ two_makers)) /\
  Forall (calm_client (lf_world (lf_at start3))) (entered two_makers) /\
  tells (lf_world (lf_at (start3 ++ two_makers))) (StoreData 3) = Ret (OData (Some [10; 20])).
Proof.
  split; [apply neatb_ok; vm_compute; reflexivity|]. split; [apply lf_at_ok; vm_compute; reflexivity|]. split; [vm_compute; reflexivity|].
  split. { apply Forall_app. split; [by repeat constructor|]. apply Forall_fmap, Forall_forall. done. }
  split. { assert (lived (start3 ++ two_makers) born = Some (lf_at (start3 ++ two_makers))) as H by (apply lf_at_ok; vm_compute; reflexivity).
    rewrite lived_app in H. rewrite (lf_at_ok start3) in H; [exact H|]. vm_compute. reflexivity. }
  split; [|vm_compute; reflexivity].
  assert (entered two_makers = [maker3; maker3]) as ->.
  { unfold two_makers. rewrite entered_app. cbn [entered]. assert (forall l, entered (map (Move (V := nat)) l) = []) as -> by (by induction l). done. }
  assert (ungrouped (lf_world (lf_at start3)) 3) as HU.
  { intros i k a b H. assert (i = 0) as ->. { destruct i; [done|]. vm_compute in H. by destruct i. } vm_compute in H. injection H as <- <- <-. lia. }
  assert (calm_client (lf_world (lf_at start3)) maker3) as HM.
  { split; [done|]. intros [[]| | |]; cbn [calm_client calm]; try done; try (split; [exact HU|]; intros r; by split). }
  apply List.Forall_cons; [exact HM|]. apply List.Forall_cons; [exact HM|apply List.Forall_nil].
Qed.
(** C46, C43 after a history that broke the rules about groups (its calls
    stopped midway four times). *)
Definition careless : client nat :=
  Call CreateEntity (fun r => Call (WriteComp 1 6 7) (fun _ => Call (Query (Q2 (QRef true 1) (QRef false 2))) (fun _ => Done))).
Example C46_any_history_case : SpecLoose.tidy messy /\ ~ rules messy /\ Forall (calm_client (after messy)) [careless; careless] /\
  exists sched, runs sched (start (after messy) [careless; careless]) = true /\
    map (fun i => got messy [careless; careless] sched i ≫= handed_ev) [0; 1] = [[2]; [4]].
Proof.
  split; [apply messy_case|]. split; [apply messy_case|]. split; [by repeat constructor|].
  exists (robin 40 (start (after messy) [careless; careless])). split; vm_compute; reflexivity.
Qed.

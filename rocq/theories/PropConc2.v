(** Threads: what goes wrong (C38, C40, C43, C44), and cases meeting the
    hypotheses of PropConc.v. *)
From Coq Require Import Sorting.Sorted.
From stdpp Require Import prelude list gmap.
From Verif Require Import Base Api ModelSparse ModelEntity ModelGroup ModelWorld ModelQuery ModelStep ModelConc SpecConc
  Spec History Rules Samples PropSafe ProofConc11 PropConc.

(** ** Checking configurations by computation *)
Section check.
Context {V : Type}.
Implicit Types (c : conf V).
Definition nobody_moves c : bool :=
  forallb (fun i => match cstep i c with None => true | _ => false end) (seq 0 (length (cf_threads c))).
Lemma nobody_moves_ok c : nobody_moves c = true -> forall i, cstep i c = None.
Proof.
  unfold nobody_moves. rewrite forallb_forall. intros H i. destruct (decide (i < length (cf_threads c))) as [Hi|Hi].
  - specialize (H i). rewrite in_seq in H. specialize (H ltac:(lia)). by destruct (cstep i c).
  - unfold cstep. by rewrite lookup_ge_None_2 by lia.
Qed.
Definition waits (i : nat) c : bool :=
  match cf_threads c !! i with Some th => match th_prog th with PAcq _ _ _ => true | _ => false end | None => false end.
Lemma deadlock_ok i c : nobody_moves c = true -> waits i c = true -> deadlocked c.
Proof.
  intros H1 H2. split; [by apply nobody_moves_ok|]. unfold waits in H2. destruct (cf_threads c !! i) as [th|] eqn:Hi; [|done].
  exists i, th. split; [done|]. destruct (th_prog th) eqn:Hp; try done. split.
  - intros (th' & Hi' & E & _). rewrite Hi in Hi'. injection Hi' as <-. congruence.
  - intros (th' & Hi' & E). rewrite Hi in Hi'. injection Hi' as <-. congruence.
Qed.
Definition all_done c : bool :=
  forallb (fun th => match th_prog th, th_holds th with PRet _, [] => true | _, _ => false end) (cf_threads c).
Lemma all_done_ok c : all_done c = true -> forall i th, cf_threads c !! i = Some th -> finished c i.
Proof.
  unfold all_done. rewrite forallb_forall. intros H i th Hi. specialize (H th). exists th. split; [done|].
  assert (In th (cf_threads c)) as Hin. { apply elem_of_list_In. by eapply elem_of_list_lookup_2. } specialize (H Hin).
  destruct (th_prog th) as [[]| | | | | |]; try done. by destruct (th_holds th).
Qed.
(** the configuration after a schedule *)
Definition at_end (sched : list nat) c : conf V := default c (run sched c).
Definition runs (sched : list nat) c : bool := match run sched c with Some _ => true | None => false end.
Lemma at_end_run sched c : runs sched c = true -> run sched c = Some (at_end sched c).
Proof. unfold runs, at_end. by destruct (run sched c). Qed.
Lemma at_end_reaches w cs sched : runs sched (start w cs) = true -> reaches w cs (at_end sched (start w cs)).
Proof. intros H. exists sched. by apply at_end_run. Qed.
Lemma at_end_later c sched : runs sched c = true -> later c (at_end sched c).
Proof. intros H. exists sched. by apply at_end_run. Qed.
Definition kept (i : nat) (l : lock) (x : bool) c : bool :=
  match cf_threads c !! i with Some th => bool_decide ((l, x) ∈ th_holds th) | None => false end.
Lemma kept_guard i l x c : kept i l x c = true -> guard_of c i (l, x).
Proof. unfold kept. destruct (cf_threads c !! i) as [th|] eqn:Hi; [|done]. intros H%bool_decide_eq_true. by exists th. Qed.
Lemma not_kept i l x c : kept i l x c = false -> ~ guard_of c i (l, x).
Proof. intros H (th & Hi & Hg). unfold kept in H. rewrite Hi in H. by apply bool_decide_eq_false in H. Qed.
Definition wanting (i : nat) (l : lock) (x : bool) c : bool :=
  match cf_threads c !! i with
  | Some th => match th_prog th with PAcq l' x' _ => bool_decide (l' = l) && Bool.eqb x' x | _ => false end
  | None => false
  end.
Lemma wanting_ok i l x c : wanting i l x c = true -> wants c i l x.
Proof.
  unfold wanting. destruct (cf_threads c !! i) as [th|] eqn:Hi; [|done]. destruct (th_prog th) as [| | | |l' x' k| |] eqn:Hp; try done.
  intros [H1%bool_decide_eq_true H2%eqb_prop]%andb_true_iff. subst. by exists th, k.
Qed.
Definition stays (i : nat) c : bool := match cstep i c with None => true | _ => false end.
Lemma stays_ok i c : stays i c = true -> cstep i c = None.
Proof. unfold stays. by destruct (cstep i c). Qed.
Fixpoint keptb (i : nat) (l : lock) (x : bool) (sched : list nat) c : bool :=
  kept i l x c && match sched with [] => true | j :: s => match cstep j c with Some c' => keptb i l x s c' | None => true end end.
Lemma kept_ok i l x sched c : keptb i l x sched c = true -> throughout (fun cm => guard_of cm i (l, x)) sched c.
Proof.
  revert c. induction sched as [|j s IH]; intros c H pre post cm E Hr; simpl in H; apply andb_true_iff in H as [H1%kept_guard H2].
  - destruct pre; [|done]. simpl in Hr. by injection Hr as <-.
  - destruct pre as [|j' pre]; simpl in *; [by injection Hr as <-|]. injection E as <- E. destruct (cstep j c) as [c1|] eqn:Ec; [|done].
    by eapply (IH c1 H2 pre post).
Qed.
End check.

(** Type 1 and 2 grouped, entity 1 has both. *)
Definition grouped : list (op nat) :=
  [Register 1; Register 2; CreateEntity; CreateEntity; Attach 1 1 10; Attach 2 1 20; MakeGroup KFull 1 2].
Example grouped_rules : rules grouped.
Proof. check_rules. Qed.

(** * C38 *)

(** A thread iterating a group and a thread attaching to a grouped type, each
    with one object at a time, deadlock: the query has the storages and waits
    for the group, the attach has the group and waits for a storage. *)
Definition group_reader : client nat := Open (QGroup KFull true true 1 2) (fun _ => DropObj 0 Done).
Definition attacher : client nat := Call (Attach 1 1 11) (fun _ => Done).
Theorem C38_group_refuted : exists (cs : list (client nat)) c,
  rules grouped /\ Forall (single false) cs /\ reaches (after grouped) cs c /\ deadlocked c /\
  wants c 0 (LGroup 0) false /\ guard_of c 1 (LGroup 0, true) /\ wants c 1 (LStore 1) true /\ guard_of c 0 (LStore 1, true).
Proof.
  exists [group_reader; attacher], (at_end (repeat 1 13 ++ repeat 0 6) (start (after grouped) [group_reader; attacher])).
  split; [exact grouped_rules|]. split.
  { constructor; [|constructor; [|constructor]]; [|by repeat split]. split; [done|]. intros r. destruct r; done. }
  split; [apply at_end_reaches; vm_compute; reflexivity|].
  split; [apply (deadlock_ok 0); vm_compute; reflexivity|].
  split; [apply wanting_ok; vm_compute; reflexivity|].
  split; [apply kept_guard; vm_compute; reflexivity|].
  split; [apply wanting_ok; vm_compute; reflexivity|].
  apply kept_guard; vm_compute; reflexivity.
Qed.
(** So do two threads iterating the same two types in opposite orders, without
    any group and any change. *)
Definition reader12 : client nat := Call (Query (Q2 (QRef true 1) (QRef true 2))) (fun _ => Done).
Definition reader21 : client nat := Call (Query (Q2 (QRef true 2) (QRef true 1))) (fun _ => Done).
Definition two_types : list (op nat) := [Register 1; Register 2].
Theorem C38_query_refuted : exists (cs : list (client nat)) c,
  rules two_types /\ Forall (single false) cs /\ reaches (after two_types) cs c /\ deadlocked c.
Proof.
  exists [reader12; reader21], (at_end (repeat 0 4 ++ repeat 1 4 ) (start (after two_types) [reader12; reader21])).
  split; [check_rules|]. split; [by repeat constructor|]. 
  split; [apply at_end_reaches; vm_compute; reflexivity|].
  apply (deadlock_ok 0); vm_compute; reflexivity.
Qed.

(** * C40 *)

(** One thread detaches type 1 from entity 1, another attaches it.  The detach
    takes the entity out of the group, the attach puts the component back and
    the entity into the group again, then the detach takes the component away.
    Both calls return; the group now lists an entity without the component,
    and iterating it is undefined behaviour, while a plain query of the two
    types finds nobody. *)
Definition detacher : client nat := Call (Detach 1 1) (fun _ => Done).
Theorem C40_race_refuted : exists (cs : list (client nat)) c,
  rules grouped /\ Forall (single false) cs /\ reaches (after grouped) cs c /\
  (forall i th, cf_threads c !! i = Some th -> finished c i) /\
  (step (StoreExist 1 1) (cf_world c)).1 = Ret (OBoolOpt (Some false)) /\
  (step (Query (Q2 (QRef false 1) (QRef false 2))) (cf_world c)).1 = Ret (OItems []) /\
  (step (Query (QGroup KFull false false 1 2)) (cf_world c)).1 = UB.
Proof.
  exists [detacher; attacher], (at_end (repeat 0 17 ++ repeat 1 21 ++ repeat 0 4) (start (after grouped) [detacher; attacher])).
  split; [exact grouped_rules|]. split; [by repeat constructor|].
  split; [apply at_end_reaches; vm_compute; reflexivity|].
  split; [apply all_done_ok; vm_compute; reflexivity|].
  repeat (split; [vm_compute; reflexivity|]). vm_compute; reflexivity.
Qed.
(** If other entities have the types too, iterating the group pairs components
    of different entities: entity 3 (which lacks type 2) has its 13 shown next
    to the 20 of entity 1 (which by now lacks type 1). *)
Definition grouped3 : list (op nat) :=
  [Register 1; Register 2; CreateEntity; CreateEntity; CreateEntity; CreateEntity; Attach 1 1 10; Attach 2 1 20;
   Attach 2 2 22; Attach 1 3 13; MakeGroup KFull 1 2].
Theorem C40_mixed_refuted : exists (cs : list (client nat)) c,
  rules grouped3 /\ Forall (single false) cs /\ reaches (after grouped3) cs c /\
  (forall i th, cf_threads c !! i = Some th -> finished c i) /\
  (step (StoreExist 1 1) (cf_world c)).1 = Ret (OBoolOpt (Some false)) /\
  (step (StoreExist 2 3) (cf_world c)).1 = Ret (OBoolOpt (Some false)) /\
  exists id, (step (Query (QGroup KFull false false 1 2)) (cf_world c)).1 = Ret (OItems [(id, V2 (VLeaf 13) (VLeaf 20))]).
Proof.
  exists [detacher; attacher], (at_end (repeat 0 17 ++ repeat 1 21 ++ repeat 0 4) (start (after grouped3) [detacher; attacher])).
  split; [check_rules|]. split; [by repeat constructor|].
  split; [apply at_end_reaches; vm_compute; reflexivity|].
  split; [apply all_done_ok; vm_compute; reflexivity|].
  repeat (split; [vm_compute; reflexivity|]). eexists. vm_compute; reflexivity.
Qed.

(** * C43 *)

(** Between [create_entity] getting an id and taking the handle, a thread with
    an old copy of the id can remove the new entity.  Then the creator panics
    (here it writes 1 to a resource if it does) ... *)
Definition created3 : list (op nat) :=
  [RegisterRes 5 0; CreateEntity; CreateEntity; CreateEntity; RemoveEntity 1 []; RemoveEntity 2 []].
Definition creator : client nat :=
  Call CreateEntity (fun r => match r with Panic => Call (WriteRes 5 1) (fun _ => Done) | _ => Done end).
Definition remover (id : nat) : client nat := Call (RemoveEntity id []) (fun _ => Done).
Theorem C43_create_panics_refuted : exists (cs : list (client nat)) c,
  rules created3 /\ answer created3 CreateEntity = Ret (OId 2) /\
  cs = [creator; remover 2] /\ reaches (after created3) cs c /\
  (forall i th, cf_threads c !! i = Some th -> finished c i) /\
  (step (ReadRes 5) (cf_world c)).1 = Ret (OVal (Some 1)).
Proof.
  exists [creator; remover 2], (at_end ([0; 0; 0] ++ repeat 1 7 ++ repeat 0 7) (start (after created3) [creator; remover 2])).
  split; [check_rules|]. split; [vm_compute; reflexivity|]. split; [done|].
  split; [apply at_end_reaches; vm_compute; reflexivity|].
  split; [apply all_done_ok; vm_compute; reflexivity|]. vm_compute; reflexivity.
Qed.
(** ... or gets a handle to an id that is handed out again while it has it:
    the creator gets 4 and keeps using it, and so does the next one. *)
Definition created : list (op nat) := [Register 1; CreateEntity; CreateEntity; CreateEntity].
Definition keeper : client nat :=
  NewEntity (fun r => match r with Ret id => HAttach 0 1 77 (fun _ => DropObj 0 Done) | _ => Done end).
Theorem C43_shared_id_refuted : exists (cs : list (client nat)) c,
  rules created /\ answer created CreateEntity = Ret (OId 4) /\
  cs = [keeper; Call (RemoveEntity 4 [1]) (fun _ => Done)] /\ reaches (after created) cs c /\
  (forall i th, cf_threads c !! i = Some th -> finished c i) /\
  (step (ReadComp 1 4) (cf_world c)).1 = Ret (OVal (Some 77)) /\
  (step CreateEntity (cf_world c)).1 = Ret (OId 4).
Proof.
  set (cs := [keeper; Call (RemoveEntity 4 [1]) (fun _ => Done)]).
  exists cs, (at_end ([0; 0; 0] ++ repeat 1 10 ++ repeat 0 8) (start (after created) cs)).
  split; [check_rules|]. split; [vm_compute; reflexivity|]. split; [done|].
  split; [apply at_end_reaches; vm_compute; reflexivity|].
  split; [apply all_done_ok; vm_compute; reflexivity|]. split; vm_compute; reflexivity.
Qed.

(** * C44 *)

(** Two threads removing the same entity both succeed; the id is then handed
    out twice. *)
Theorem C44_remove_twice_refuted : exists (cs : list (client nat)) c,
  rules created /\ cs = [Call (RemoveEntity 1 [1]) (fun _ => Done); Call (RemoveEntity 1 [1]) (fun _ => Done)] /\
  reaches (after created) cs c /\ (forall i th, cf_threads c !! i = Some th -> finished c i) /\
  exists w1 w2, step CreateEntity (cf_world c) = (Ret (OId 1), w1) /\ step CreateEntity w1 = (Ret (OId 1), w2).
Proof.
  set (cs := [Call (RemoveEntity 1 [1]) (fun _ => Done); Call (RemoveEntity 1 [1]) (fun _ => Done)] : list (client nat)).
  exists cs, (at_end (repeat 0 7 ++ repeat 1 7 ++ repeat 0 3 ++ repeat 1 3) (start (after created) cs)).
  split; [check_rules|]. split; [done|].
  split; [apply at_end_reaches; vm_compute; reflexivity|].
  split; [apply all_done_ok; vm_compute; reflexivity|].
  eexists _, _. split; vm_compute; reflexivity.
Qed.

(** * Cases *)

(** C36: two threads reading type 1 while a third waits to write it and a
    fourth has written a resource. *)
Definition store_reader : client nat := GetStore 1 false (fun _ => Use 0 (StoreGet 1 1) (fun _ => DropObj 0 Done)).
Definition store_writer : client nat := GetStore 1 true (fun _ => Use 0 (StoreGetMut 1 1 99) (fun _ => DropObj 0 Done)).
Example C36_case : exists c, reaches (after grouped) [store_reader; store_reader; store_writer] c /\
  guard_of c 0 (LStore 1, false) /\ guard_of c 1 (LStore 1, false) /\ wants c 2 (LStore 1) true /\ cstep 2 c = None /\
  (exists c', later c c' /\ guard_of c' 2 (LStore 1, true) /\ ~ guard_of c' 0 (LStore 1, false)) /\
  exists c', later c c' /\ (forall i th, cf_threads c' !! i = Some th -> finished c' i) /\
    (step (ReadComp 1 1) (cf_world c')).1 = Ret (OVal (Some 99)).
Proof.
  set (c := at_end [0; 1; 2; 1; 0] (start (after grouped) [store_reader; store_reader; store_writer])). exists c.
  split; [apply at_end_reaches; vm_compute; reflexivity|].
  split; [apply kept_guard; vm_compute; reflexivity|].
  split; [apply kept_guard; vm_compute; reflexivity|].
  split; [apply wanting_ok; vm_compute; reflexivity|].
  split; [apply stays_ok; vm_compute; reflexivity|]. split.
  - exists (at_end [0; 1; 0; 1; 2] c). split; [apply at_end_later; vm_compute; reflexivity|]. split; [apply kept_guard|apply not_kept]; vm_compute; reflexivity.
  - exists (at_end [0; 1; 0; 1; 2; 2; 2] c). split; [apply at_end_later; vm_compute; reflexivity|].
    split; [apply all_done_ok; vm_compute; reflexivity|]. vm_compute; reflexivity.
Qed.
(** C37: thread 0 keeps a handle to entity 1 and attaches through it while
    thread 1 tries to remove the entity and has to wait for the handle to go.
    (By then it has taken the components away, the one just attached, too: the
    handle protects the id only.) *)
Definition handle_user : client nat := GetEntity 1 (fun r => match r with Ret true => HAttach 0 1 11 (fun _ => DropObj 0 Done) | _ => Done end).
Definition remover12 : client nat := Call (RemoveEntity 1 [1; 2]) (fun _ => Done).
Definition plain12 : list (op nat) := [Register 1; Register 2; CreateEntity; CreateEntity; Attach 2 1 20].
Example C37_case : exists c sched c', reaches (after plain12) [handle_user; remover12] c /\
  run sched c = Some c' /\ throughout (fun cm => guard_of cm 0 (LMan, false)) sched c /\
  0 ∈ sched /\ 1 ∈ sched /\ wants c' 1 LMan true /\ cstep 1 c' = None /\
  (step (Exist 1) (cf_world c')).1 = Ret (OBool true) /\ (step (ReadComp 1 1) (cf_world c')).1 = Ret (OVal None) /\
  exists c'', later c' c'' /\ (forall i th, cf_threads c'' !! i = Some th -> finished c'' i) /\
    exists w1, step CreateEntity (cf_world c'') = (Ret (OId 1), w1).
Proof.
  set (sched := repeat 1 4 ++ repeat 0 5 ++ repeat 1 12).
  set (c := at_end [0; 0] (start (after plain12) [handle_user; remover12])).
  exists c, sched, (at_end sched c).
  split; [apply at_end_reaches; vm_compute; reflexivity|]. split; [apply at_end_run; vm_compute; reflexivity|].
  split; [apply kept_ok; vm_compute; reflexivity|]. split; [by_compute|]. split; [by_compute|].
  split; [apply wanting_ok; vm_compute; reflexivity|].
  split; [apply stays_ok; vm_compute; reflexivity|]. split; [vm_compute; reflexivity|]. split; [vm_compute; reflexivity|].
  exists (at_end [0; 1; 1; 1] (at_end sched c)). split; [apply at_end_later; vm_compute; reflexivity|].
  split; [apply all_done_ok; vm_compute; reflexivity|]. eexists; vm_compute; reflexivity.
Qed.
(** A thread without a handle does get its entity, and its entity removed. *)
Example C37_ends_case : ends (after plain12) [] (p_call CreateEntity) (Ret (OId 3)) /\
  ends (after plain12) [] (p_call (RemoveEntity 2 [])) (Ret OUnit).
Proof.
  assert (forall w : world nat, same_shape w w) as HS by (split; done).
  split.
  - split; [done|]. exists (after plain12). split; [done|]. cbn [fst snd act]. set (w1 := (step CreateEntity (after plain12)).2).
    vm_compute in w1. vm_compute. split; [done|]. exists w1. split; [|vm_compute; reflexivity].
    split; vm_compute; [intros [|[|[|t]]]; done|done|done].
  - split; [done|]. exists (after plain12). split; [done|]. vm_compute. exists (after plain12). split; [done|]. vm_compute.
    split; [done|]. exists (after plain12). split; [done|]. vm_compute. done.
Qed.

(** C38: threads attaching, removing, iterating two types in the order of the
    types, keeping a handle while writing; and, with [gq], threads iterating
    the group while others write components and attach an ungrouped type. *)
Definition tidy_cs : list (client nat) :=
  [ attacher; detacher; remover12; reader12;
    GetEntity 2 (fun r => match r with Ret true => HAttach 0 2 5 (fun r => match r with Ret _ => Call (WriteComp 2 2 6) (fun _ => DropObj 0 Done) | _ => Done end) | _ => Done end) ].
Example C38_case : groups_in_order id (after grouped) /\ Forall (tidy id false (after grouped) None) tidy_cs.
Proof.
  split.
  - intros i k a b H. assert (i = 0) as ->. { destruct i; [done|]. vm_compute in H. by destruct i. } vm_compute in H. injection H as <- <- <-. simpl. lia.
  - assert (forall t t', t < t' -> in_order id [t; t']) as H12. { intros t t' H. constructor; [repeat constructor|]. by repeat constructor. }
    repeat apply List.Forall_cons; [..|by constructor]; cbn.
    + split; [done|]. split; [by left|done].
    + split; [done|]. split; [by left|done].
    + split; [split; [done|apply H12; lia]|]. split; [by left|done].
    + split; [split; [apply H12; lia|by left]|]. split; [by left|done].
    + split; [done|]. intros [[]| | |]; cbn; try done. do 3 (split; [done|]). intros [[]| | |]; cbn; try done.
      split; [done|]. split; [by right|]. done.
Qed.
Definition grouped_and_3 : list (op nat) := grouped ++ [Register 3].
Definition tidy_cs2 : list (client nat) :=
  [ group_reader; Call (WriteComp 1 1 100) (fun _ => Done); Call (Attach 3 1 30) (fun _ => Done);
    Call CreateEntity (fun r => match r with Ret (OId n) => Call (Attach 3 n 31) (fun _ => Done) | _ => Done end) ].
Example C38_case2 : groups_in_order id (after grouped_and_3) /\ Forall (tidy id true (after grouped_and_3) None) tidy_cs2.
Proof.
  assert (forall i k a b, group_head i (after grouped_and_3) = Some (k, a, b) -> k = KFull /\ a = 1 /\ b = 2) as HG.
  { intros i k a b H. assert (i = 0) as ->. { destruct i; [done|]. vm_compute in H. by destruct i. } vm_compute in H. by injection H as <- <- <-. }
  split.
  - intros i k a b (-> & -> & ->)%HG. simpl. lia.
  - assert (ungrouped (after grouped_and_3) 3) as HU by (intros i k a b (-> & -> & ->)%HG; lia).
    assert (forall t t', t < t' -> in_order id [t; t']) as H12. { intros t t' H. constructor; [repeat constructor|]. by repeat constructor. }
    repeat apply List.Forall_cons; [..|by constructor]; cbn [tidy op_tidy group_reader].
    + split; [done|]. split; [split; [apply H12; lia|right; split; [done|]; by eexists _, _, _, _, _]|]. intros [[]| | |]; done.
    + split; [done|]. split; [by left|done].
    + split; [intros _; exact HU|]. split; [by left|done].
    + split; [done|]. split; [by left|]. intros [[]| | |]; cbn [tidy op_tidy]; try done. split; [intros _; exact HU|]. split; [by left|done].
Qed.
(** and they do finish under some schedule, having done something *)
Fixpoint greedy {V} (n : nat) (c : conf V) : conf V * list nat :=
  match n with
  | 0 => (c, [])
  | S n' =>
      match find (fun i => negb (stays i c)) (seq 0 (length (cf_threads c))) with
      | Some i => match cstep i c with Some c' => let '(c2, s) := greedy n' c' in (c2, i :: s) | None => (c, []) end
      | None => (c, [])
      end
  end.
Example C38_case_run : exists sched, runs sched (start (after grouped) tidy_cs) = true /\
  all_done (at_end sched (start (after grouped) tidy_cs)) = true /\
  (step (StoreGet 2 2) (cf_world (at_end sched (start (after grouped) tidy_cs)))).1 = Ret (OValOpt (Some (Some 6))).
Proof.
  assert (exists s, s = (greedy 1000 (start (after grouped) tidy_cs)).2) as [s E] by by eexists. vm_compute in E.
  exists s. rewrite E. vm_compute. done.
Qed.

(** C39: a thread making three entities and batch-attaching, one attaching and
    detaching on grouped types, one iterating, one removing. *)
Definition plain_cs : list (client nat) :=
  [ NewEntities 3 (fun r => match r with Ret _ => HBatch 0 1 [7; 8; 9] (fun _ => DropObj 0 Done) | _ => Done end);
    attacher; detacher; reader12; Call (QueryMut (QRef true 1) (fun _ _ v => S v)) (fun _ => Done); remover12 ].
Definition freshb (i : nat) (c : conf nat) : bool :=
  match did i c with
  | Some (BBatch t lo hi _) => forallb (fun id => match shows (cf_world c) t id with None => true | _ => false end) (seq lo (hi - lo))
  | _ => true
  end.
Fixpoint fresh_sched (sched : list nat) (c : conf nat) : bool :=
  match sched with
  | [] => true
  | i :: s => freshb i c && match cstep i c with Some c' => fresh_sched s c' | None => true end
  end.
Lemma fresh_sched_ok w cs sched : runs sched (start w cs) = true -> fresh_sched sched (start w cs) = true ->
  reaches_fresh w cs (at_end sched (start w cs)).
Proof.
  intros H1 H2. exists sched. split; [by apply at_end_run|]. clear H1. revert H2. generalize (start w cs) as c.
  induction sched as [|j s IH]; intros c H pre i post cm E Hr; [by destruct pre|]. simpl in H. apply andb_true_iff in H as [H1 H2].
  destruct pre as [|j' pre]; simpl in *; injection E as <- E.
  - injection Hr as <-. intros t lo hi vs id Hd Hid. unfold freshb in H1. rewrite Hd in H1. rewrite forallb_forall in H1.
    specialize (H1 id). rewrite in_seq in H1. specialize (H1 ltac:(lia)). by destruct (shows (cf_world c) t id).
  - destruct (cstep j c) as [c1|]; [|done]. by eapply (IH c1 H2 pre).
Qed.
Lemma no_batches (ops : list (op nat)) : Forall (fun o => match o with BatchAttach _ _ _ _ => False | _ => True end) ops -> batches_fresh ops.
Proof. intros H ops1 lo hi t vs ops2 id ->. apply Forall_app in H as [_ H]. by inversion H. Qed.
Example C39_case : batches_fresh grouped /\ Forall (fun o => plain_call o = true) grouped /\ Forall plain_client plain_cs /\
  exists sched, reaches_fresh (after grouped) plain_cs (at_end sched (start (after grouped) plain_cs)) /\
    all_done (at_end sched (start (after grouped) plain_cs)) = true /\
    (step (StoreGet 1 4) (cf_world (at_end sched (start (after grouped) plain_cs)))).1 = Ret (OValOpt (Some (Some 9))).
Proof.
  split; [by apply no_batches; repeat constructor|]. split; [by repeat constructor|]. split.
  { repeat apply List.Forall_cons; [..|by constructor]; cbn; try done. intros [[]| | |]; done. }
  assert (exists s, s = (greedy 1000 (start (after grouped) plain_cs)).2) as [s E] by by eexists. vm_compute in E.
  exists s. rewrite E. split; [apply fresh_sched_ok; vm_compute; reflexivity|]. vm_compute. done.
Qed.

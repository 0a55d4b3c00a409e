(** C39 with group queries: threads that keep out of each other's way (the
    discipline of C40: [minds], SpecApart.v) may also query owning groups, and
    keep iterators over them while others work. *)
From stdpp Require Import prelude list gmap.
From Verif Require Import Base Api ModelSparse ModelEntity ModelGroup ModelWorld ModelQuery ModelStep ModelConc SpecConc
  Spec History Rules Samples SpecApart ProofWf ProofMain ProofHistory ProofHistory2
  ProofConc ProofConc4 ProofConc8 ProofConc10 ProofApart ProofApart2 ProofApart3 PropConc2 PropApart ProofSafe4.

Section safe.
Context {V : Type}.
Implicit Types (ops : list (op V)) (cs : list (client V)) (c : conf V).

(** Whatever they do and however they are scheduled, no thread ever runs into
    undefined behaviour: neither in a call, nor in a query of an owning group,
    nor in using an iterator, an entity handle or a storage it has kept.

    Missing from C39: queries of non-owning groups (their members are
    remembered by position, and go stale without any threads, C30), and
    threads that keep no discipline (C39_group_race_refuted). *)
Theorem C39_apart_partial ops shared kept still own cs c i : rules ops ->
  divided shared kept (alive (seen ops)) own ->
  (forall n cl, cs !! n = Some cl -> minds (after ops) shared kept still (own n) knows_nothing [] cl) ->
  Forall client_own cs ->
  reaches (after ops) cs c -> ~ crashed c i.
Proof.
  intros L Hd Hcs Ho [sched Hr] (th & Hi & Hp). assert (forall e, shared e = true -> kept e = true) as Hsk by apply Hd.
  pose proof (AI_start ops shared kept still own cs L Hd Hcs) as H0.
  pose proof (SI_run _ _ _ _ _ _ _ Hsk _ _ _ H0 (SI_start (after ops) cs Ho (AI_owned _ _ _ _ _ _ _ _ H0)) Hr i th Hi) as (u & _ & Hf).
  by rewrite Hp in Hf.
Qed.
End safe.

(** The five threads of C40_apart_case, and two more: one iterates the group
    (1, 2) for reading, keeping the iterator over several calls and looking
    entity 1 up in it; one queries the group together with plain parts. *)
Definition group_walker : client nat :=
  Open (QGroup KFull false false 1 2) (fun r => match r with Ret _ => ICall 0 CNext (fun _ => ICall 0 (CFromId 1) (fun _ => ICall 0 CNext (fun _ => DropObj 0 Done))) | _ => Done end).
Definition group_asker : client nat :=
  Call (Query (QGroup KFull false false 1 2)) (fun _ => Call (Query (Q2 (QRef false 1) (QRef false 2))) (fun _ => Done)).
Definition walk_cs : list (client nat) := apart_cs ++ [group_walker; group_asker].
Lemma walk_minds n cl : walk_cs !! n = Some cl -> minds (after apart_ops) apart_shared apart_kept true (apart_own n) knows_nothing [] cl.
Proof.
  intros H. unfold walk_cs in H. apply lookup_app_Some in H as [H|[Hn H]]; [by apply apart_minds|].
  revert H. generalize (after apart_ops). intros w. destruct (n - length apart_cs) as [|[|m]]; [..|by destruct m]; intros [= <-]; cbn [minds op_apart].
  - intros [[]| | |]; done.
  - unfold may_write. split; [done|]. intros r _. cbn [minds op_apart]. done.
Qed.
Lemma walk_own : Forall client_own walk_cs.
Proof.
  repeat apply List.Forall_cons; [..|by constructor]; cbn; try done.
  - intros [id| | |]; try done. intros [[]| | |]; try done. cbn. intros _. destruct (apart_kept _); done.
  - split; [done|]. intros [[]| | |]; done.
  - intros [[lo hi]| | |]; try done. destruct lo as [|[|[|[|lo]]]]; try done. cbn. intros [[]| | |]; done.
  - split; [done|]. intros [[]| | |]; done.
Qed.
Example C39_apart_case : rules apart_ops /\ divided apart_shared apart_kept (alive (seen apart_ops)) apart_own /\
  (forall n cl, walk_cs !! n = Some cl -> minds (after apart_ops) apart_shared apart_kept true (apart_own n) knows_nothing [] cl) /\
  Forall client_own walk_cs.
Proof. split; [check_rules|]. split; [apply apart_divided|]. split; [apply walk_minds|apply walk_own]. Qed.
(** One of their runs to the end, in turns.  (Not all runs get there: C38.) *)
Example C39_apart_run : exists sched, runs sched (start (after apart_ops) walk_cs) = true /\
  take 12 sched = [5; 6; 6; 6; 0; 1; 5; 6; 0; 1; 5; 6] /\
  all_done (at_end sched (start (after apart_ops) walk_cs)) = true.
Proof.
  assert (exists s, s = [5; 6; 6; 6] ++ (robin 1000 0 (at_end [5; 6; 6; 6] (start (after apart_ops) walk_cs))).2) as [s E] by by eexists. vm_compute in E.
  exists s. rewrite E. split; [vm_compute; done|]. split; [done|]. vm_compute; done.
Qed.

(** Without the discipline: a thread that detaches a grouped type from an
    entity and a thread that attaches it to the same entity make a third one,
    which does nothing but query the group, run into undefined behaviour. *)
Theorem C39_group_race_refuted : exists (cs : list (client nat)) c,
  rules grouped /\ Forall (single false) cs /\ Forall client_own cs /\ reaches (after grouped) cs c /\ crashed c 2.
Proof.
  set (cs := [detacher; attacher; Call (Query (QGroup KFull false false 1 2)) (fun _ => Done)]).
  assert (exists c, c = at_end (repeat 0 17 ++ repeat 1 21 ++ repeat 0 4 ++ repeat 2 15) (start (after grouped) cs)) as [c Ec] by by eexists.
  exists cs, c. split; [exact grouped_rules|]. split; [by repeat constructor|]. split; [by repeat constructor|].
  split; [rewrite Ec; apply at_end_reaches; vm_compute; reflexivity|].
  assert (match cf_threads c !! 2 with Some th => match th_prog th with PUB => true | _ => false end | None => false end = true) as H by (rewrite Ec; vm_compute; reflexivity).
  unfold crashed. destruct (cf_threads c !! 2) as [th|]; [|done]. exists th. split; [done|]. by destruct (th_prog th).
Qed.

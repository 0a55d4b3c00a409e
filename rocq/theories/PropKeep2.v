(** C36: what a thread reads through a guard or an iterator it keeps stays the
    same until it writes itself. *)
From stdpp Require Import prelude list gmap.
From Verif Require Import Base Api ModelSparse ModelEntity ModelGroup ModelWorld ModelQuery ModelStep ModelConc SpecConc SpecKeep
  Spec History Rules Samples ProofSparse ProofWorld ProofWf ProofTerm ProofConc ProofConc2 ProofConc3
  ProofConc4 ProofConc5 ProofConc6 ProofConc7 ProofConc8 ProofConc9 ProofConc10 ProofConc11 ProofKeep ProofKeep2 PropConc PropConc2 PropKeep.

Section keep.
Context {V : Type}.
Implicit Types (w : world V) (c : conf V) (cs : list (client V)) (ob : obj V).

(** Whatever the other threads do meanwhile, any call through a storage or
    resource guard that thread [i] keeps (read or write) answers as before. *)
Theorem C36_repeatable_reads w cs sched c i sched' c' ob o : run sched (start w cs) = Some c -> run sched' c = Some c' -> i ∉ sched' ->
  ob ∈ kept_by i sched w cs -> through ob o = true ->
  (step o (cf_world c')).1 = (step o (cf_world c)).1.
Proof.
  intros Hr Hr' Hi Hob Ho. pose proof (others_agree w cs sched c i sched' c' ob Hr Hr' Hi Hob) as Ha.
  assert (confined (cf_world c) (obj_holds ob) (step o)) as Hc.
  { destruct (through_guard ob o Ho) as [_ [(t & x & Hh & Hx & _)|[(t & Hh & Hx & _)|[(r & x & Hh & ->)|(r & v & Hh & ->)]]]].
    - by apply (piece_read_op (cf_world c) (obj_holds ob) o t x).
    - by apply (piece_write_op (cf_world c) (obj_holds ob) o t).
    - by apply (piece_read_res (cf_world c) (obj_holds ob) r x).
    - by apply (piece_write_res (cf_world c) (obj_holds ob) r v). }
  destruct (Hc (cf_world c) (shape_refl _)) as (_ & _ & H). by destruct (H (cf_world c') Ha).
Qed.
(** An iterator that thread [i] keeps yields, finds and promises the same. *)
Theorem C36_repeatable_iteration w cs sched c i sched' c' J st hs q : run sched (start w cs) = Some c -> run sched' c = Some c' -> i ∉ sched' ->
  JIter J st hs ∈ kept_by i sched w cs ->
  let r := run_call J (own_writes hs q) (cf_world c, st) in
  let r' := run_call J (own_writes hs q) (cf_world c', st) in
  r'.1 = r.1 /\ r'.2.2 = r.2.2.
Proof.
  intros Hr Hr' Hi Hob r r'. pose proof (others_agree w cs sched c i sched' c' _ Hr Hr' Hi Hob) as Ha. cbn [obj_holds] in Ha.
  pose proof (iter_inv w cs sched c i Hr) as HF. rewrite Forall_forall in HF. specialize (HF _ Hob). cbn [iok] in HF.
  pose proof (confined_icall (cf_world c) hs hs J st q (fun y H => H) HF) as Hc.
  destruct (Hc (cf_world c) (shape_refl _)) as (_ & _ & H). destruct (H (cf_world c') Ha) as [E _]. unfold icall_act in E.
  fold r in E. fold r' in E. destruct r as [o [u s]], r' as [o' [u' s']]. cbn [fst snd] in *. by injection E as -> ->.
Qed.
End keep.

(** ** Concrete cases *)
(** Thread 0 keeps a guard of the storage of type 1; meanwhile thread 1 creates
    an entity and attaches type 2 to entity 1.  Reading type 1 through the guard
    answers as before, reading type 2 would not. *)
Definition plain21 : list (op nat) := [Register 1; Register 2; CreateEntity; CreateEntity; Attach 1 1 10; Attach 1 2 11; Attach 2 1 20].
Definition busy_with_2 : client nat := Call CreateEntity (fun _ => Call (Attach 2 1 77) (fun _ => Done)).
Example C36_repeatable_case : exists sched c sched' c', let cs := [keeper false; busy_with_2] in
  run sched (start (after plain21) cs) = Some c /\ run sched' c = Some c' /\ 0 ∉ sched' /\
  JStore 1 false ∈ kept_by 0 sched (after plain21) cs /\ through (JStore 1 false) (StoreGet (V := nat) 1 1) = true /\
  (step (StoreGet 1 1) (cf_world c')).1 = Ret (OValOpt (Some (Some 10))) /\
  (step (StoreGet 2 1) (cf_world c)).1 <> (step (StoreGet 2 1) (cf_world c')).1.
Proof.
  set (s := [0; 0]). set (s' := repeat 1 14). set (cs := [keeper false; busy_with_2]).
  exists s, (at_end s (start (after plain21) cs)), s', (at_end s' (at_end s (start (after plain21) cs))). cbv zeta.
  split; [apply at_end_run; vm_compute; reflexivity|]. split; [apply at_end_run; vm_compute; reflexivity|].
  split; [intros H; vm_compute in H; set_solver|].
  split; [apply stores_in_ok; by_compute|]. split; [done|]. split; [vm_compute; reflexivity|]. vm_compute. discriminate.
Qed.
(** The same with an iterator over type 1, half way through. *)
Definition half_way : client nat := Open (QRef false 1) (fun _ => ICall 0 CNextId (fun _ => ICall 0 CNextId (fun _ => Done))).
Definition yields (e : list (obj nat)) (w : world nat) : option (outcome (qans nat)) :=
  match e with JIter J st hs :: _ => Some (run_call J (own_writes hs CNextId) (w, st)).1 | _ => None end.
Lemma yields_ok e w a : yields e w = Some a -> exists J st hs, JIter J st hs ∈ e /\ (run_call J (own_writes hs CNextId) (w, st)).1 = a.
Proof. destruct e as [|[| | | |J st hs] e]; try done. cbn. intros [= <-]. exists J, st, hs. split; [by left|done]. Qed.
Example C36_repeatable_iteration_case : exists sched c sched' c', let cs := [half_way; busy_with_2] in
  run sched (start (after plain21) cs) = Some c /\ run sched' c = Some c' /\ 0 ∉ sched' /\
  (step (StoreGet 2 1) (cf_world c)).1 <> (step (StoreGet 2 1) (cf_world c')).1 /\
  exists J st hs, JIter J st hs ∈ kept_by 0 sched (after plain21) cs /\
    (run_call J (own_writes hs CNextId) (cf_world c', st)).1 = Ret (AIdItem (Some (2, VLeaf 11))).
Proof.
  set (s := repeat 0 4). set (s' := repeat 1 14). set (cs := [half_way; busy_with_2]).
  exists s, (at_end s (start (after plain21) cs)), s', (at_end s' (at_end s (start (after plain21) cs))). cbv zeta.
  split; [apply at_end_run; vm_compute; reflexivity|]. split; [apply at_end_run; vm_compute; reflexivity|].
  split; [intros H; vm_compute in H; set_solver|]. split; [vm_compute; discriminate|].
  apply yields_ok. vm_compute. reflexivity.
Qed.

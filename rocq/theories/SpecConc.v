(** What the theorems on threads talk about: the vocabulary of PropConc.v.
    Nothing here depends on proofs. *)
From Coq Require Import Sorting.Sorted.
From stdpp Require Import prelude list gmap.
From Verif Require Import Base Api ModelSparse ModelEntity ModelGroup ModelWorld ModelQuery ModelStep ModelConc Spec History.

Section spec_conc.
Context {V : Type}.
Implicit Types (w : world V) (c : conf V) (th : thread V).

(** ** Parts of a world *)

(** The part of the world behind a lock is the same in [w] and [w']. *)
Definition part_eq (l : lock) w w' : Prop :=
  match l with
  | LMan => w_em w = w_em w'
  | LGroup i => w_groups w !! i = w_groups w' !! i
  | LStore t => w_comps w !! t = w_comps w' !! t
  | LRes r => w_res w !! r = w_res w' !! r
  end.

(** What needs no lock because it never changes while a world is shared (it
    would need [&mut World]): the registered types, the groups' kinds and
    types, the resources there are. *)
Record same_shape w w' : Prop := {
  sh_comps : forall t, st_ty <$> (w_comps w !! t) = st_ty <$> (w_comps w' !! t);
  sh_groups : forall i, group_head i w = group_head i w';
  sh_res : forall r, rv_ty <$> (w_res w !! r) = rv_ty <$> (w_res w' !! r)
}.

(** ** Configurations *)

(** [c] can be reached by the threads [cs] sharing the world [w] *)
Definition reaches w (cs : list (client V)) c : Prop := exists sched, run sched (start w cs) = Some c.
(** thread [i] has the guard [g] (lock, exclusive?) *)
Definition guard_of c (i : nat) (g : lock * bool) : Prop :=
  exists th, cf_threads c !! i = Some th /\ g ∈ th_holds th.
(** thread [i] waits for the lock [l] or is about to be granted it *)
Definition wants c (i : nat) (l : lock) (x : bool) : Prop :=
  exists th k, cf_threads c !! i = Some th /\ th_prog th = PAcq l x k.
(** thread [i] has run to its end and has no guard left *)
Definition finished c (i : nat) : Prop :=
  exists th, cf_threads c !! i = Some th /\ th_prog th = PRet tt /\ th_holds th = [].
(** thread [i] ran into undefined behaviour *)
Definition crashed c (i : nat) : Prop := exists th, cf_threads c !! i = Some th /\ th_prog th = PUB.
(** thread [i] hangs in a call that never ends for reasons of its own (a loop
    that does not end, or waiting for a lock it has itself) *)
Definition hung c (i : nat) : Prop := exists th, cf_threads c !! i = Some th /\ th_prog th = PHang.
(** nobody can move although somebody is not finished *)
Definition deadlocked c : Prop :=
  (forall i, cstep i c = None) /\ exists i th, cf_threads c !! i = Some th /\ ~ finished c i /\ ~ crashed c i.

(** [c'] comes later than [c] *)
Definition later c c' : Prop := exists sched, run sched c = Some c'.
(** [P] holds at every point of the run [sched] from [c], ends included *)
Definition throughout (P : conf V -> Prop) (sched : list nat) c : Prop :=
  forall pre post cm, sched = pre ++ post -> run pre c = Some cm -> P cm.

(** [ends w h p r]: a thread that has the guards [h] and runs the call [p] on a
    world of the shape of [w], other threads doing anything whatsoever between
    its steps, may see [p] end with the outcome [r]. *)
Fixpoint ends w {A} (h : list (lock * bool)) (p : prog V A) (r : outcome A) : Prop :=
  match p with
  | PRet a => r = Ret a
  | PPanic => r = Panic
  | PUB => r = UB
  | PHang => False
  | PAcq l x k => conflict h l x = false /\ ends w ((l, x) :: h) k r
  | PRel l x k => ends w (drop_hold l x h) k r
  | PAct _ f k => exists w1, same_shape w w1 /\
      match (f w1).1 with
      | Ret b => ends w h (k b) r
      | Panic => r = Panic
      | UB => r = UB
      | Block => False
      end
  end.

(** the piece of work thread [i] does next, if it does one *)
Definition next_label th : option (label V) :=
  match th_prog th with PAct lab _ _ => Some lab | _ => None end.
Definition did (i : nat) c : option (label V) :=
  match cf_threads c !! i with Some th => next_label th | None => None end.

(** ** Values *)

(** what [entity_component_read::<T>(id)] would show of [w] *)
Definition shows w (t id : nat) : option V :=
  match step (ReadComp t id) w with (Ret (OVal o), _) => o | _ => None end.

(** What a piece of work is to do to the component [t] of entity [id]:
    [before] and [after] are what a reader sees.  [owned]: the types the
    group that [remove_entity] works on owns. *)
Definition owned_by w (i t : nat) : bool :=
  match group_head i w with
  | Some (KFull, a, b) => (a =? t) || (b =? t)
  | Some (KPart, a, _) => a =? t
  | _ => false
  end.
Definition work_on w (lab : label V) (t id : nat) (before after : option V) : Prop :=
  match lab with
  | BPut t' id' v => after = if decide (t' = t /\ id' = id /\ has_registered t w = true) then Some v else before
  | BBatch t' lo hi vs =>
      after = if decide (t' = t /\ lo <= id < hi /\ length vs = hi - lo /\ has_registered t w = true)
              then vs !! (id - lo) else before
  | BTake t' id' | BDrop t' id' => after = if decide (t' = t /\ id' = id) then None else before
  | BKill i id' => after = before \/ (owned_by w i t = true /\ id' = id /\ after = None)
  | BSet (WriteComp t' id' v) | BSet (StoreGetMut t' id' v) =>
      after = if decide (t' = t /\ id' = id) then match before with Some _ => Some v | None => None end else before
  | BSet (WriteRes _ _) => after = before
  | BWrite | BSet _ => is_Some after <-> is_Some before
  | _ => after = before
  end.

(** Thread [i] is not about to batch-attach to an entity that has the type
    already (C07 says what happens otherwise). *)
Definition fresh_step (i : nat) c : Prop :=
  forall t lo hi vs id, did i c = Some (BBatch t lo hi vs) -> lo <= id < hi -> shows (cf_world c) t id = None.
(** [c] can be reached without such a step *)
Definition reaches_fresh w (cs : list (client V)) c : Prop :=
  exists sched, run sched (start w cs) = Some c /\
    forall pre i post cm, sched = pre ++ i :: post -> run pre (start w cs) = Some cm -> fresh_step i cm.

(** ** Disciplines for clients *)

(** no group is queried: the calls are plain queries and anything else *)
Definition plain_op (o : op V) : Prop :=
  match o with Query q | QueryMut q _ => q_plain q = true | _ => True end.
Fixpoint plain_client (c : client V) : Prop :=
  match c with
  | Done => True
  | Call o k => plain_op o /\ forall r, plain_client (k r)
  | Open q k => q_plain q = true /\ forall r, plain_client (k r)
  | GetEntity _ k => forall r, plain_client (k r)
  | NewEntity k => forall r, plain_client (k r)
  | NewEntities _ k => forall r, plain_client (k r)
  | HAttach _ _ _ k | HBatch _ _ _ k => forall r, plain_client (k r)
  | HDetach _ _ k => forall r, plain_client (k r)
  | GetStore _ _ k | GetComp _ _ _ k | GetRes _ _ k => forall r, plain_client (k r)
  | Use _ _ k => forall r, plain_client (k r)
  | ICall _ _ k => forall r, plain_client (k r)
  | DropObj _ k => plain_client k
  end.

(** At most one object (handle, guard, iterator) is kept at a time, and while
    one is kept the world is used only through it. *)
Fixpoint single (held : bool) (c : client V) : Prop :=
  match c with
  | Done => True
  | Call o k => held = false /\ forall r, single false (k r)
  | GetEntity _ k => held = false /\ forall r, single (match r with Ret true => true | _ => false end) (k r)
  | NewEntity k => held = false /\ forall r, single (match r with Ret _ => true | _ => false end) (k r)
  | NewEntities _ k => held = false /\ forall r, single (match r with Ret _ => true | _ => false end) (k r)
  | HAttach _ _ _ k => forall r, single (match r with Ret _ => held | _ => false end) (k r)
  | HBatch _ _ _ k => forall r, single (match r with Ret _ => held | _ => false end) (k r)
  | HDetach _ _ k => forall r, single held (k r)
  | GetStore _ _ k | GetComp _ _ _ k | GetRes _ _ k => held = false /\ forall b, single b (k b)
  | Use _ _ k => forall r, single held (k r)
  | Open q k => held = false /\ forall r, single (match r with Ret _ => true | _ => false end) (k r)
  | ICall _ _ k => forall r, single held (k r)
  | DropObj _ k => single false k
  end.

(** The same with locks taken in order.  [held]: [None] nothing, [Some
    true] an entity handle, [Some false] a guard or an iterator. *)
Section tidy.
(** [rank]: the order in which storages are locked.  [gq]: do the clients
    query groups?  If so they do not attach to or detach from grouped types
    and remove no entities while the world is shared. *)
Variables (rank : tid -> nat) (gq : bool) (w : world V).

Fixpoint q_order (q : query) : list tid :=
  match q with
  | QRef _ t => [t]
  | Q2 a b | QWithoutL a b | QWithoutR a b => q_order a ++ q_order b
  | Q3 a b c => q_order a ++ q_order b ++ q_order c
  | Q4 a b c d => q_order a ++ q_order b ++ q_order c ++ q_order d
  | Q5 a b c d e => q_order a ++ q_order b ++ q_order c ++ q_order d ++ q_order e
  | QGroup _ _ _ a b => [a; b]
  end.
Definition in_order (l : list tid) : Prop := StronglySorted (fun t t' => rank t < rank t') l.
Definition q_tidy (q : query) : Prop :=
  in_order (q_order q) /\
  (q_plain q = true \/ (gq = true /\ exists k ma mb a b, q = QGroup k ma mb a b)).
Definition ungrouped (t : tid) : Prop :=
  forall i k a b, group_head i w = Some (k, a, b) -> a <> t /\ b <> t.
Definition op_tidy (o : op V) : Prop :=
  match o with
  | Query q | QueryMut q _ => q_tidy q
  | RemoveEntity _ ord => gq = false /\ in_order ord
  | Attach t _ _ | Detach t _ => gq = true -> ungrouped t
  | _ => True
  end.
(** calls that leave the entity manager alone *)
Definition no_manager (o : op V) : Prop :=
  match o with
  | CreateEntity | CreateEntities _ | RemoveEntity _ _ | Exist _ | Attach _ _ _ | Detach _ _ => False
  | _ => True
  end.
Fixpoint tidy (held : option bool) (c : client V) : Prop :=
  match c with
  | Done => True
  | Call o k => op_tidy o /\ (held = None \/ held = Some true /\ no_manager o) /\ forall r, tidy held (k r)
  | GetEntity _ k => held = None /\ forall r, tidy (match r with Ret true => Some true | _ => None end) (k r)
  | NewEntity k => held = None /\ forall r, tidy (match r with Ret _ => Some true | _ => None end) (k r)
  | NewEntities _ k => held = None /\ forall r, tidy (match r with Ret _ => Some true | _ => None end) (k r)
  | HAttach j t _ k => held = Some true /\ j = 0 /\ (gq = true -> ungrouped t) /\
      forall r, tidy (match r with Ret _ => held | _ => None end) (k r)
  | HBatch j t _ k => held = Some true /\ j = 0 /\ forall r, tidy (match r with Ret _ => held | _ => None end) (k r)
  | HDetach j t k => held = Some true /\ j = 0 /\ (gq = true -> ungrouped t) /\ forall r, tidy held (k r)
  | GetStore _ _ k | GetComp _ _ _ k | GetRes _ _ k =>
      held = None /\ forall b, tidy (if (b : bool) then Some false else None) (k b)
  | Use _ _ k => forall r, tidy held (k r)
  | Open q k => held = None /\ q_tidy q /\ forall r, tidy (match r with Ret _ => Some false | _ => None end) (k r)
  | ICall _ _ k => forall r, tidy held (k r)
  | DropObj j k => j = 0 /\ tidy None k
  end.
(** the groups' two types are locked in the order of [rank] *)
Definition groups_in_order : Prop :=
  forall i k a b, group_head i w = Some (k, a, b) -> rank a < rank b.
End tidy.

(** ** One after the other *)

(** Calls that act at one instant: no [remove_entity], no attaching or
    detaching of types that are in groups.  ([register] etc. need [&mut
    World].) *)
Definition calm w (o : op V) : Prop :=
  match o with
  | Register _ | MakeGroup _ _ _ | RegisterRes _ _ | BatchAttach _ _ _ _ | RemoveEntity _ _ => False
  | Attach t _ _ | Detach t _ => ungrouped w t
  | _ => True
  end.
(** a client making such calls one after the other, keeping no objects *)
Fixpoint calm_client w (cl : client V) : Prop :=
  match cl with
  | Done => True
  | Call o k => calm w o /\ forall r, calm_client w (k r)
  | _ => False
  end.
(** [made cl l]: the client [cl] may first make the calls and get the answers
    [l]; [rest cl l]: what it has still to do then. *)
Fixpoint made (cl : client V) (l : list (op V * outcome (out V))) {struct l} : Prop :=
  match l with
  | [] => True
  | (o, r) :: l' => match cl with Call o' k => o' = o /\ made (k r) l' | _ => False end
  end.
Fixpoint rest (cl : client V) (l : list (op V * outcome (out V))) {struct l} : client V :=
  match l with
  | [] => cl
  | (_, r) :: l' => match cl with Call _ k => rest (k r) l' | _ => cl end
  end.
(** what was done at the moves of thread [i] *)
Fixpoint by_thread {A} (i : nat) (sched : list nat) (evs : list (list A)) : list A :=
  match sched, evs with
  | j :: sched', e :: evs' => (if decide (j = i) then e else []) ++ by_thread i sched' evs'
  | _, _ => []
  end.

(** Following a thread that makes calls one after the other: is it through
    ([Idle]), inside a call ([Busy]: [mine] the guards taken, [p] what is
    left to do), or leaving one that panicked ([Unwinding]: guards [hs] still
    to be dropped)? *)
Local Notation event := (op V * outcome (out V))%type.
Inductive phase : Type :=
| Idle
| Busy (o : op V) (k : outcome (out V) -> client V) (mine : list (lock * bool)) (p : prog V (out V))
| Unwinding (o : op V) (k : outcome (out V) -> client V) (hs : list (lock * bool)).
Definition enter (cl : client V) : phase :=
  match cl with Call o k => Busy o k [] (p_call o) | _ => Idle end.
(** the program such a thread has left *)
Definition prog_of (ph : phase) : prog V unit :=
  match ph with
  | Idle => PRet tt
  | Busy o k mine p => catch mine p (fun r _ => compile [] (k r))
  | Unwinding o k hs => rels hs (compile [] (k Panic))
  end.
(** a call that is through gives its answer, and the next one begins *)
Definition settle (ph : phase) : list event * phase :=
  match ph with
  | Busy o k _ (PRet a) => ([(o, Ret a)], enter (k (Ret a)))
  | Busy o k [] PPanic | Unwinding o k [] => ([(o, Panic)], enter (k Panic))
  | Busy o k hs PPanic => ([], Unwinding o k hs)
  | ph => ([], ph)
  end.
(** a move of the thread on the world [w] *)
Definition move w (ph : phase) : list event * phase :=
  match ph with
  | Busy o k mine (PAcq l x p) => settle (Busy o k ((l, x) :: mine) p)
  | Busy o k mine (PRel l x p) => settle (Busy o k (drop_hold l x mine) p)
  | Busy o k mine (PAct _ f kk) =>
      settle (match (f w).1 with
              | Ret b => Busy o k mine (kk b)
              | Panic => Busy o k mine PPanic
              | UB => Busy o k mine PUB
              | Block => Busy o k mine PHang
              end)
  | Unwinding o k (_ :: hs) => settle (Unwinding o k hs)
  | ph => ([], ph)
  end.
(** Along a run: the answers thread [i] has got, and where it is. *)
Fixpoint follow (i : nat) (ph : phase) (sched : list nat) c : list event * phase :=
  match sched with
  | [] => ([], ph)
  | j :: sched' =>
      match cstep j c with
      | None => ([], ph)
      | Some c' =>
          let m := if decide (j = i) then move (cf_world c) ph else ([], ph) in
          let f := follow i m.2 sched' c' in
          (m.1 ++ f.1, f.2)
      end
  end.

(** Thread [i] can move even if locks are granted only when nobody has a
    guard on them, not even a shared one (parking_lot makes readers wait
    behind a waiting writer). *)
Definition can_move c (i : nat) : Prop :=
  (exists c', cstep i c = Some c') /\
  forall l x, wants c i l x -> forall j y, ~ guard_of c j (l, y).
End spec_conc.

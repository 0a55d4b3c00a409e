(** A discipline by which threads divide the entities of a shared world among
    themselves: the vocabulary of PropApart.v (C40, C43, C44).  Nothing here
    depends on proofs. *)
From stdpp Require Import prelude list gmap.
From Verif Require Import Base Api ModelSparse ModelWorld ModelStep ModelConc SpecConc Spec History.

Section apart.
Context {V : Type}.
(** [w]: the shared world at the start.  [shared id]: the entity is (or, if it
    is made later, will be) everybody's.  [kept id]: nobody ever removes the
    entity.  Every thread has entities of its own, the set [mine]: some it is
    given at the start, and the ones it makes that are not everybody's; an
    entity it removes is its own no longer.  [still]: values are overwritten
    in place only where components may be attached. *)
Variables (w : world V) (shared kept : nat -> bool) (still : bool).
Implicit Types (mine : gset nat) (o : op V).

(** Components may be attached to and detached from one's own entities, and
    attached to those that are everybody's; types in no group may be attached
    to and detached from any entity that is never removed. *)
Definition may_attach mine (t id : nat) : Prop :=
  id ∈ mine \/ shared id = true \/ (kept id = true /\ ungrouped w t).
Definition may_detach mine (t id : nat) : Prop :=
  id ∈ mine \/ (kept id = true /\ ungrouped w t).
(** Other threads may attach [t] to [id], whosever it is. *)
Definition common (t id : nat) : Prop := shared id = true \/ (kept id = true /\ ungrouped w t).
(** Overwriting values: anything goes, but if [still], values are overwritten
    one by one, and only where components may be attached. *)
Definition may_write mine o : Prop :=
  match o with
  | WriteComp t id _ | StoreGetMut t id _ => still = true -> may_attach mine t id
  | StoreDataSet _ _ _ | QueryMut _ _ => still = false
  | _ => True
  end.

(** No group owns a type of a group made later (what goes wrong otherwise
    without any threads: C31). *)
Definition no_inversion : Prop :=
  forall i j t k a b, i < j -> owned_by w i t = true -> group_head j w = Some (k, a, b) -> a <> t /\ b <> t.

(** What a thread may do: it removes only entities of its own that are not to
    be kept.  [ord] is the order in which the table of the registered types
    is walked, whatever it is. *)
Definition op_apart mine o : Prop :=
  match o with
  | Attach t id _ => may_attach mine t id
  | Detach t id => may_detach mine t id
  | RemoveEntity id ord => id ∈ mine /\ kept id = false /\ no_inversion /\
      NoDup ord /\ forall t, t ∈ ord <-> has_registered t w = true
  | _ => may_write mine o
  end.

(** Its own entities once the call [o] has answered [r]. *)
Definition gain (ids : list nat) mine : gset nat := mine ∪ list_to_set (filter (fun id => shared id = false) ids).
Definition own_next mine o (r : outcome (out V)) : gset nat :=
  match o, r with
  | CreateEntity, Ret (OId id) => gain [id] mine
  | CreateEntities _, Ret (ORange lo hi) => gain (seq lo (hi - lo)) mine
  | RemoveEntity id _, _ => mine ∖ {[id]}
  | _, _ => mine
  end.
(** What it can rely on: creating entities works, and gives it ids that are
    not its own already; removing its own entities works, and so does
    attaching registered types to them. *)
Definition fair mine o (r : outcome (out V)) : Prop :=
  match o with
  | CreateEntity => exists id, r = Ret (OId id) /\ id <> 0 /\ id ∉ mine
  | CreateEntities n => exists lo, r = Ret (ORange lo (lo + n)) /\ lo <> 0 /\ forall id, lo <= id < lo + n -> id ∉ mine
  | RemoveEntity id _ => r = Ret OUnit
  | Attach t id _ => id ∈ mine -> has_registered t w = true -> r = Ret OUnit
  | _ => True
  end.

(** Batch attaches.  The groups are not told of them (C32), and they must not
    meet components that are there already (C07).  [bare t id]: the thread
    knows that its entity [id] has no component [t], because it got [id] from
    [create_entities] and has not attached a [t] to it since. *)
Implicit Type bare : nat -> nat -> bool.
Definition knows_nothing : nat -> nat -> bool := fun _ _ => false.
(** the ids from [lo] to [hi - 1] are new; [id] may be a recycled one; [t] has
    been attached to the ids from [lo] to [hi - 1] *)
Definition blank (lo hi : nat) bare : nat -> nat -> bool := fun t id => (lo <=? id) && (id <? hi) || bare t id.
Definition unsure (id : nat) bare : nat -> nat -> bool := fun t x => negb (x =? id) && bare t x.
Definition filled (t lo hi : nat) bare : nat -> nat -> bool := fun u x => negb ((u =? t) && (lo <=? x) && (x <? hi)) && bare u x.
Definition bare_next bare o (r : outcome (out V)) : nat -> nat -> bool :=
  match o, r with
  | CreateEntity, Ret (OId id) => unsure id bare
  | CreateEntities _, Ret (ORange lo hi) => blank lo hi bare
  | Attach t id _, Ret _ => filled t id (S id) bare
  | _, _ => bare
  end.
(** It attaches batches only to entities of its own that it knows to have
    neither [t] nor any type that is in a group with [t], and that are not
    common for [t]. *)
Definition may_batch mine bare (t lo hi : nat) : Prop :=
  forall id, lo <= id < hi -> id ∈ mine /\ ~ common t id /\ bare t id = true /\
    forall i k a b, group_head i w = Some (k, a, b) -> a = t \/ b = t -> a <> b /\ bare a id = true /\ bare b id = true.

(** A thread with the program [cl] keeps to this.  [e]: the objects it
    keeps, as in [compile] (ModelConc.v), of which only the handles to
    entities matter here.  What it does next may depend on the answers it
    gets; it need not be prepared for answers that are not fair. *)
Inductive handle : Type := HOne (id : nat) | HMany (lo hi : nat) | HOther.
Fixpoint minds mine bare (e : list handle) (cl : client V) : Prop :=
  match cl with
  | Done => True
  | Call o k => op_apart mine o /\ forall r, fair mine o r -> minds (own_next mine o r) (bare_next bare o r) e (k r)
  | GetEntity id k => forall r, minds mine bare (match r with Ret true => HOne id :: e | _ => e end) (k r)
  | NewEntity k => forall id, id <> 0 -> id ∉ mine -> minds (gain [id] mine) (unsure id bare) (HOne id :: e) (k (Ret id))
  | NewEntities n k => forall lo, lo <> 0 -> (forall id, lo <= id < lo + n -> id ∉ mine) ->
      minds (gain (seq lo n) mine) (blank lo (lo + n) bare) (HMany lo (lo + n) :: e) (k (Ret (lo, lo + n)))
  | HAttach j t _ k =>
      match e !! j with
      | Some (HOne id) => may_attach mine t id /\ forall r,
          match r with Ret _ => minds mine (filled t id (S id) bare) e (k r) | _ => minds mine bare (delete j e) (k r) end
      | _ => True
      end
  | HDetach j t k =>
      match e !! j with
      | Some (HOne id) => may_detach mine t id /\ forall r, minds mine bare e (k r)
      | _ => True
      end
  | HBatch j t _ k =>
      match e !! j with
      | Some (HMany lo hi) => may_batch mine bare t lo hi /\ forall r,
          match r with Ret _ => minds mine (filled t lo hi bare) e (k r) | _ => minds mine bare (delete j e) (k r) end
      | _ => True
      end
  | GetStore _ _ k | GetComp _ _ _ k | GetRes _ _ k =>
      forall b, minds mine bare (if (b : bool) then HOther :: e else e) (k b)
  | Use _ o k => may_write mine o /\ forall r, minds mine bare e (k r)
  | Open _ k => forall r, minds mine bare (match r with Ret _ => HOther :: e | _ => e end) (k r)
  | ICall _ c k => match c with CWrite _ => still = false | _ => True end /\ forall r, minds mine bare e (k r)
  | DropObj j k => minds mine bare (delete j e) k
  end.

(** The entities are well divided at the start: [own n] are those of thread
    [n]; they are alive, no two threads have the same, none is everybody's;
    and what is everybody's is kept. *)
Definition divided (alive : gset nat) (own : nat -> gset nat) : Prop :=
  (forall n, own n ⊆ alive) /\ (forall n m id, id ∈ own n -> id ∈ own m -> n = m) /\
  (forall n id, id ∈ own n -> shared id = false) /\ (forall id, shared id = true -> kept id = true).

(** ** What a thread sees of its own entities *)

(** What the thread makes of one of its calls: its entity [id] has component
    [t] with value [cur] before, and after?  New entities have no components;
    apart from that it is what [value_of] (History.v) says. *)
Definition own_event (t id : nat) (cur : option V) (ev : event V) : option V :=
  if decide (id ∈ handed_ev ev) then None else comp_event t id cur ev.
(** after the history [h0] of the world and the thread's own calls [h] *)
Definition own_value (h0 h : history V) (t id : nat) : option V := foldl (own_event t id) (value_of h0 t id) h.
(** its own entities, after its calls [h] *)
Definition own_after (mine : gset nat) (h : history V) : gset nat := foldl (fun s ev => own_next s ev.1 ev.2) mine h.

(** No entity that is not alive has components, after [h0], except where other
    threads may attach anyway (components may be attached to entities that are
    not alive, C18). *)
Definition bare_dead (h0 : history V) : Prop :=
  forall t id, id ∉ alive h0 -> ~ common t id -> value_of h0 t id = None.
(** Threads that make nothing but calls, those of a shared world. *)
Fixpoint calls_only (cl : client V) : Prop :=
  match cl with
  | Done => True
  | Call o k => match o with Register _ | RegisterRes _ _ | MakeGroup _ _ _ | BatchAttach _ _ _ _ => False | _ => True end /\ forall r, calls_only (k r)
  | _ => False
  end.

(** The same value; if values are overwritten by anybody ([still = false]),
    only: both there or both not there. *)
Definition alike (x y : option V) : Prop := (is_Some x <-> is_Some y) /\ (still = true -> x = y).
(** The answer [r] to [o] is right for a thread whose own entities are
    [mine], with the components [val]. *)
Definition as_alone mine (val : nat -> nat -> option V) o (r : outcome (out V)) : Prop :=
  match o with
  | Exist id => id ∈ mine -> r = Ret (OBool true)
  | ReadComp t id => id ∈ mine -> ~ common t id -> exists x, r = Ret (OVal x) /\ alike x (val t id)
  | StoreGet t id => id ∈ mine -> ~ common t id -> has_registered t w = true -> exists x, r = Ret (OValOpt (Some x)) /\ alike x (val t id)
  | StoreExist t id => id ∈ mine -> ~ common t id -> has_registered t w = true -> r = Ret (OBoolOpt (Some (bool_decide (is_Some (val t id)))))
  | WriteComp t id _ | StoreGetMut t id _ => id ∈ mine -> ~ common t id -> r = Ret (OBool (bool_decide (is_Some (val t id))))
  | Detach t id => id ∈ mine -> ~ common t id ->
      if bool_decide (is_Some (val t id)) then exists x, r = Ret (OVal (Some x)) /\ alike (Some x) (val t id)
      else r = Ret (OVal None) \/ r = Panic (* C04 *)
  | _ => True
  end.
End apart.

(** ** Queries (C39)
    Those made of plain parts and of owning groups: everything but non-owning
    groups, whose members are remembered by position (C30). *)
Fixpoint q_own (q : query) : bool :=
  match q with
  | QRef _ _ => true
  | Q2 a b | QWithoutL a b | QWithoutR a b => q_own a && q_own b
  | Q3 a b c => q_own a && q_own b && q_own c
  | Q4 a b c d => q_own a && q_own b && q_own c && q_own d
  | Q5 a b c d e => q_own a && q_own b && q_own c && q_own d && q_own e
  | QGroup k _ _ _ _ => match k with KNon => false | _ => true end
  end.
(** A call, and a thread's program, with such queries only. *)
Definition op_own {V} (o : op V) : bool := match o with Query q | QueryMut q _ => q_own q | _ => true end.
Fixpoint client_own {V} (cl : client V) : Prop :=
  match cl with
  | Done => True
  | Call o k => op_own o = true /\ forall r, client_own (k r)
  | GetEntity _ k => forall r, client_own (k r)
  | NewEntity k => forall r, client_own (k r)
  | NewEntities _ k => forall r, client_own (k r)
  | HAttach _ _ _ k => forall r, client_own (k r)
  | HDetach _ _ k => forall r, client_own (k r)
  | HBatch _ _ _ k => forall r, client_own (k r)
  | GetStore _ _ k | GetComp _ _ _ k | GetRes _ _ k => forall b, client_own (k b)
  | Use _ _ k => forall r, client_own (k r)
  | Open q k => q_own q = true /\ forall r, client_own (k r)
  | ICall _ _ k => forall r, client_own (k r)
  | DropObj _ k => client_own k
  end.

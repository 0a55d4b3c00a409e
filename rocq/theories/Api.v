(** The vocabulary of the public API: query expressions, calls and results.
    Shared by the model (ModelQuery.v, ModelStep.v) and by the specification
    (Spec.v); contains no behaviour. *)
From stdpp Require Import prelude list.

(** Types are numbers (a [TypeId]); entity ids are numbers >= 1. *)

(** [make_group(full_owning::<A,B>())], [partial_owning], [non_owning]. *)
Inductive gkind : Type := KFull | KPart | KNon.
#[global] Instance gkind_eq_dec : EqDecision gkind.
Proof. solve_decision. Defined.

(** A Queryable type.  The boolean is "mutable": [&mut T] vs [&T]. *)
Inductive query : Type :=
| QRef (m : bool) (t : nat)                      (* &T, &mut T *)
| Q2 (a b : query)                               (* (A,B) *)
| Q3 (a b c : query)
| Q4 (a b c d : query)
| Q5 (a b c d e : query)
| QWithoutL (a b : query)                        (* (Without<A>,B) *)
| QWithoutR (a b : query)                        (* (A,Without<B>) *)
| QGroup (k : gkind) (ma mb : bool) (a b : nat). (* FullOwning<&A,&B>, ... *)

(** The value of a query item. *)
Inductive vtree (V : Type) : Type :=
| VLeaf (v : V)
| V2 (a b : vtree V)
| V3 (a b c : vtree V)
| V4 (a b c d : vtree V)
| V5 (a b c d e : vtree V).
Arguments VLeaf {V}.
Arguments V2 {V}.
Arguments V3 {V}.
Arguments V4 {V}.
Arguments V5 {V}.

Section ops.
Context {V : Type}.

(** API calls.  [RemoveEntity]'s second argument is not an argument of the
    call: it is the order in which the hash map of storages happens to be
    enumerated. *)
Inductive op : Type :=
| Register (t : nat)                       (* world.register::<T>() *)
| HasRegistered (t : nat)
| CreateEntity                             (* world.create_entity().into_id() *)
| CreateEntities (n : nat)                 (* world.create_entities(n).into_ids() *)
| RemoveEntity (id : nat) (ord : list nat) (* world.remove_entity(id) *)
| Exist (id : nat)                         (* world.exist(id); world.entity(id).is_some() *)
| Attach (t id : nat) (v : V)              (* world.attach_component(id, v : T) *)
| Detach (t id : nat)                      (* world.detach_component::<T>(id) *)
| BatchAttach (lo hi t : nat) (vs : list V)(* entities.attach(vs), handle for lo..hi *)
| ReadComp (t id : nat)                    (* world.entity_component_read::<T>(id), value *)
| WriteComp (t id : nat) (v : V)           (* *world.entity_component_write::<T>(id) = v *)
| StoreCount (t : nat)                     (* components_read::<T>()  .count() *)
| StoreIsEmpty (t : nat)                   (*   .is_empty() *)
| StoreExist (t id : nat)                  (*   .exist(id) *)
| StoreGet (t id : nat)                    (*   .get(id) *)
| StoreData (t : nat)                      (*   .data() *)
| StoreGetMut (t id : nat) (v : V)         (* *components_write::<T>().get_mut(id) = v *)
| StoreDataSet (t i : nat) (v : V)         (* components_write::<T>().data_mut()[i] = v *)
| MakeGroup (k : gkind) (a b : nat)
| Query (q : query)                        (* world.query::<Q>().with_id().collect() *)
| QueryMut (q : query) (f : nat -> nat -> V -> V)
      (* for (id,item) in query.with_id(): read item, then every [&mut T] in it
         := f T id old; result: what was read *)
| RegisterRes (r : nat) (v : V)
| ReadRes (r : nat)
| WriteRes (r : nat) (v : V).

(** Results. *)
Inductive out : Type :=
| OUnit
| OBool (b : bool)
| ONat (n : nat)
| OId (id : nat)
| ORange (lo hi : nat)
| OVal (v : option V)
| ONatOpt (n : option nat)
| OBoolOpt (b : option bool)
| OValOpt (v : option (option V))
| OData (l : option (list V))
| OItems (l : list (nat * vtree V)).

(** Using a query's iterator by hand: the methods of [Iterator] and
    [QueryIterator].  [CWrite g]: between two calls the client writes through
    mutable references it obtained; [g t id] is what happens to the component
    [t] of entity [id].  (Any change of values is allowed here, also through
    references the client does not have.) *)
Inductive qcall : Type :=
| CNext                                    (* it.next() *)
| CNextId                                  (* it.next_with_id() *)
| CFromId (id : nat)                       (* it.from_id(id) *)
| CHint                                    (* it.size_hint() *)
| CWrite (g : nat -> nat -> V -> V).

(** What they answer, with the values read at once.  [AHint (Some n)]:
    [(n, Some(n))]; [AHint None]: the default [(0, None)]. *)
Inductive qans : Type :=
| AItem (v : option (vtree V))
| AIdItem (v : option (nat * vtree V))
| AHint (n : option nat)
| AWrote.

End ops.
Arguments qcall : clear implicits.
Arguments qans : clear implicits.
Arguments op : clear implicits.
Arguments out : clear implicits.

(** What a history of calls and their results says, without looking into any
    world: the second half of the specification (the first is Spec.v).

    A history is the list of calls made so far, oldest first, each with what
    the caller saw.  The functions below read off such a history which value
    an entity's component has, which ids are alive, which removed ids are
    waiting for reuse, which types are registered, which groups exist and
    what a resource holds.  They look only at the calls and their visible
    results. *)
From stdpp Require Import prelude list gmap.
From Verif Require Import Base Api Spec.

(** a call and what the caller saw *)
Notation event V := (op V * outcome (out V))%type.
Notation history V := (list (op V * outcome (out V))).

Section history.
Context {V : Type}.
Implicit Types (h : history V) (ev : event V).

(** ** Components *)

(** What one call does to the component [t] of entity [id]; [cur] is what it
    was before ([None]: the entity has no such component). *)
Definition comp_event (t id : nat) (cur : option V) (ev : event V) : option V :=
  match ev with
  | (Attach t' id' v, Ret _) => if decide (t' = t /\ id' = id) then Some v else cur
  | (WriteComp t' id' v, Ret (OBool true)) => if decide (t' = t /\ id' = id) then Some v else cur
  | (StoreGetMut t' id' v, Ret (OBool true)) => if decide (t' = t /\ id' = id) then Some v else cur
  | (Detach t' id', Ret _) => if decide (t' = t /\ id' = id) then None else cur
  | (BatchAttach lo hi t' vs, Ret _) => if decide (t' = t /\ lo <= id < hi) then vs !! (id - lo) else cur
  | (RemoveEntity id' _, Ret _) => if decide (id' = id) then None else cur
  | (QueryMut q f, Ret (OItems l)) =>
      if decide (id ∈ l.*1 /\ t ∈ q_muts q) then f t id <$> cur else cur
  | _ => cur
  end.
(** The component [t] of entity [id] after the history. *)
Definition value_of h (t id : nat) : option V := foldl (comp_event t id) None h.

(** ** Entities *)

(** the ids a call handed out *)
Definition handed_ev ev : list nat :=
  match ev with
  | (CreateEntity, Ret (OId i)) => [i]
  | (CreateEntities _, Ret (ORange lo hi)) => seq lo (hi - lo)
  | _ => []
  end.
(** all the ids ever handed out *)
Definition handed h : gset nat := list_to_set (h ≫= handed_ev).

(** the entities alive: handed out and not removed since *)
Definition alive_event (s : gset nat) ev : gset nat :=
  match ev with
  | (RemoveEntity i _, Ret _) => s ∖ {[i]}
  | _ => s ∪ list_to_set (handed_ev ev)
  end.
Definition alive h : gset nat := foldl alive_event ∅ h.

(** the removed ids not handed out again, most recently removed first *)
Definition waiting_event (l : list nat) ev : list nat :=
  match ev with
  | (RemoveEntity i _, Ret _) => i :: l
  | _ => filter (fun i => i ∉ handed_ev ev) l
  end.
Definition waiting h : list nat := foldl waiting_event [] h.

(** ** Types, groups, resources *)
Definition reg_event (s : gset nat) ev : gset nat :=
  match ev with (Register t, Ret _) => {[t]} ∪ s | _ => s end.
Definition types_of h : gset nat := foldl reg_event ∅ h.

Definition group_event (l : list (gkind * nat * nat)) ev : list (gkind * nat * nat) :=
  match ev with (MakeGroup k a b, Ret _) => l ++ [(k, a, b)] | _ => l end.
Definition groups_of h : list (gkind * nat * nat) := foldl group_event [] h.

Definition res_event (r : nat) (cur : option V) ev : option V :=
  match ev with
  | (RegisterRes r' v, Ret _) => if decide (r' = r) then Some v else cur
  | (WriteRes r' v, Ret (OBool true)) => if decide (r' = r) then Some v else cur
  | _ => cur
  end.
Definition res_of h (r : nat) : option V := foldl (res_event r) None h.

(** one more than the largest id that ever got a component of type [t];
    0 if none did *)
Definition slot_event (t n : nat) ev : nat :=
  match ev with
  | (Attach t' id _, Ret _) => if decide (t' = t) then n `max` S id else n
  | (BatchAttach lo hi t' _, Ret _) => if decide (t' = t /\ lo < hi) then n `max` hi else n
  | _ => n
  end.
Definition slots_of h (t : nat) : nat := foldl (slot_event t) 0 h.

(** ** The meaning of a query, given the components *)
Definition both_vals (val : nat -> nat -> option V) (a b id : nat) : option (vtree V) :=
  match val a id, val b id with
  | Some x, Some y => Some (V2 (VLeaf x) (VLeaf y))
  | _, _ => None
  end.
Fixpoint q_sem (val : nat -> nat -> option V) (q : query) (id : nat) : option (vtree V) :=
  match q with
  | QRef _ t => VLeaf <$> val t id
  | Q2 a b =>
      match q_sem val a id, q_sem val b id with
      | Some x, Some y => Some (V2 x y)
      | _, _ => None
      end
  | Q3 a b c =>
      match q_sem val a id, q_sem val b id, q_sem val c id with
      | Some x, Some y, Some z => Some (V3 x y z)
      | _, _, _ => None
      end
  | Q4 a b c d =>
      match q_sem val a id, q_sem val b id, q_sem val c id, q_sem val d id with
      | Some x, Some y, Some z, Some u => Some (V4 x y z u)
      | _, _, _, _ => None
      end
  | Q5 a b c d e =>
      match q_sem val a id, q_sem val b id, q_sem val c id, q_sem val d id, q_sem val e id with
      | Some x, Some y, Some z, Some u, Some v => Some (V5 x y z u v)
      | _, _, _, _, _ => None
      end
  | QWithoutL a b => match q_sem val a id with None => q_sem val b id | Some _ => None end
  | QWithoutR a b => match q_sem val b id with None => q_sem val a id | Some _ => None end
  | QGroup _ _ _ a b => both_vals val a b id
  end.
(** [l] lists exactly the entities having an item, once each, with the item *)
Definition exactly (sem : nat -> option (vtree V)) (l : list (nat * vtree V)) : Prop :=
  NoDup l.*1 /\ forall id v, (id, v) ∈ l <-> sem id = Some v.

(** What the calls [cs] on the iterator of [q] answer: [val] are the current
    component values and [rem] the entities still to be visited; [sized]
    tells whether the iterator knows how many there are. *)
Fixpoint q_calls (sized : bool) (q : query) (val : nat -> nat -> option V) (rem : list nat)
    (cs : list (qcall V)) : list (qans V) :=
  match cs with
  | [] => []
  | CNext :: cs' => AItem (head rem ≫= q_sem val q) :: q_calls sized q val (tail rem) cs'
  | CNextId :: cs' =>
      AIdItem (head rem ≫= (fun id => (fun v => (id, v)) <$> q_sem val q id))
      :: q_calls sized q val (tail rem) cs'
  | CFromId id :: cs' => AItem (q_sem val q id) :: q_calls sized q val rem cs'
  | CHint :: cs' => AHint (if sized then Some (length rem) else None) :: q_calls sized q val rem cs'
  | CWrite g :: cs' =>
      AWrote :: q_calls sized q (fun t id => g t id <$> val t id) rem cs'
  end.
(** [size_hint] is known for single references and for groups *)
Definition knows_size (q : query) : bool :=
  match q with QRef _ _ | QGroup _ _ _ _ _ => true | _ => false end.

(** a query without group iterators *)
Fixpoint q_plain (q : query) : bool :=
  match q with
  | QRef _ _ => true
  | Q2 a b | QWithoutL a b | QWithoutR a b => q_plain a && q_plain b
  | Q3 a b c => q_plain a && q_plain b && q_plain c
  | Q4 a b c d => q_plain a && q_plain b && q_plain c && q_plain d
  | Q5 a b c d e => q_plain a && q_plain b && q_plain c && q_plain d && q_plain e
  | QGroup _ _ _ _ _ => false
  end.

(** ** Opening a query *)

(** the references a query makes, in order: type, mutable *)
Fixpoint q_refs (q : query) : list (nat * bool) :=
  match q with
  | QRef m t => [(t, m)]
  | Q2 a b | QWithoutL a b | QWithoutR a b => q_refs a ++ q_refs b
  | Q3 a b c => q_refs a ++ q_refs b ++ q_refs c
  | Q4 a b c d => q_refs a ++ q_refs b ++ q_refs c ++ q_refs d
  | Q5 a b c d e => q_refs a ++ q_refs b ++ q_refs c ++ q_refs d ++ q_refs e
  | QGroup _ ma mb a b => [(a, ma); (b, mb)]
  end.
(** the groups it iterates *)
Fixpoint q_groups (q : query) : list (gkind * nat * nat) :=
  match q with
  | QRef _ _ => []
  | Q2 a b | QWithoutL a b | QWithoutR a b => q_groups a ++ q_groups b
  | Q3 a b c => q_groups a ++ q_groups b ++ q_groups c
  | Q4 a b c d => q_groups a ++ q_groups b ++ q_groups c ++ q_groups d
  | Q5 a b c d e => q_groups a ++ q_groups b ++ q_groups c ++ q_groups d ++ q_groups e
  | QGroup k _ _ a b => [(k, a, b)]
  end.
(** all its types are registered and all its groups have been made *)
Definition q_known h (q : query) : Prop :=
  (forall t m, (t, m) ∈ q_refs q -> t ∈ types_of h) /\
  (forall g, g ∈ q_groups q -> g ∈ groups_of h).
(** it refers to a type twice and to one of the two mutably *)
Definition q_conflict (q : query) : Prop :=
  exists i j t m n, i < j /\ q_refs q !! i = Some (t, m) /\ q_refs q !! j = Some (t, n) /\ (m || n) = true.

(** ** Groups *)

(** the types a group owns *)
Definition owns (g : gkind * nat * nat) (t : nat) : Prop :=
  match g with
  | (KFull, a, b) => t = a \/ t = b
  | (KPart, a, b) => t = a
  | (KNon, _, _) => False
  end.

(** Was the entity left out of the group, because it got its second type by a
    batch attach (C32), and no single attach has followed? *)
Definition left_event (k : gkind) (a b id : nat) (cur : bool) ev : bool :=
  match ev with
  | (BatchAttach lo hi t _, Ret _) => if decide ((t = a \/ t = b) /\ lo <= id < hi) then true else cur
  | (Attach t i _, Ret _) => if decide ((t = a \/ t = b) /\ i = id) then false else cur
  | (MakeGroup k' a' b', Ret _) => if decide (k' = k /\ a' = a /\ b' = b) then false else cur
  | _ => cur
  end.
Definition left_out h (k : gkind) (a b id : nat) : bool := foldl (left_event k a b id) false h.

(** The entities in the group: having both types and not left out. *)
Definition in_group h (k : gkind) (a b id : nat) : Prop :=
  is_Some (value_of h a id) /\ is_Some (value_of h b id) /\ left_out h k a b id = false.

(** Could the call move a component of type [a] or [b] to another place in
    its storage? ([h]: what happened before) *)
Definition reorders h (a b t : nat) : Prop :=
  exists k' a' b', (k', a', b') ∈ groups_of h /\ (t = a' \/ t = b') /\ (owns (k', a', b') a \/ owns (k', a', b') b).
Definition disturbs h (a b : nat) ev : Prop :=
  match ev with
  | (Attach t id _, Ret _) => reorders h a b t
  | (Detach t id, Ret (OVal (Some _))) => t = a \/ t = b \/ reorders h a b t
  | (RemoveEntity id _, Ret _) => is_Some (value_of h a id) \/ is_Some (value_of h b id)
  | (MakeGroup k' a' b', Ret _) => owns (k', a', b') a \/ owns (k', a', b') b
  | _ => False
  end.
(** Since the non-owning group of [a] and [b] was made, no call could. *)
Definition undisturbed h (a b : nat) : Prop :=
  forall h1 ev h2, h = h1 ++ ev :: h2 -> (KNon, a, b) ∈ groups_of h1 -> ~ disturbs h1 a b ev.

(** what the groups in a query [q] are like after the history *)
Definition q_undisturbed h (q : query) : Prop := forall a b, (KNon, a, b) ∈ q_groups q -> undisturbed h a b.
Definition q_none_left h (q : query) : Prop :=
  forall k a b id, (k, a, b) ∈ q_groups q -> is_Some (value_of h a id) -> is_Some (value_of h b id) ->
    left_out h k a b id = false.

End history.

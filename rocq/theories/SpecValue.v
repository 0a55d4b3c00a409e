(** Where the values given to a world go: the vocabulary of PropValue.v
    (C51).  Only calls and their answers are looked at. *)
From stdpp Require Import prelude list gmap.
From Verif Require Import Base Api Spec History.

Section value.
Context {V : Type}.
Implicit Types (h : history V) (ev : event V) (o : op V).

(** the values of type [t] a call hands to the world (whether or not it is
    refused) *)
Definition given (t : nat) ev : list V :=
  match ev.1 with
  | Attach t' _ v | WriteComp t' _ v | StoreGetMut t' _ v | StoreDataSet t' _ v => if decide (t' = t) then [v] else []
  | BatchAttach _ _ t' vs => if decide (t' = t) then vs else []
  | _ => []
  end.
(** the values of type [t] it gets back, to keep *)
Definition returned (t : nat) ev : list V :=
  match ev with
  | (Detach t' _, Ret (OVal (Some v))) => if decide (t' = t) then [v] else []
  | _ => []
  end.
(** calls that change values in place by a function of the old value *)
Definition in_place o : bool := match o with QueryMut _ _ => true | _ => false end.

(** All the values given, and got back, in a history. *)
Definition all_given t h : list V := h ≫= given t.
Definition all_returned t h : list V := h ≫= returned t.

(** What a call drops, [h] being the history before it.  Overwriting drops
    the old value; a refused call drops what it was given; removing an entity
    drops its components; changing values in place drops the old ones (the new
    ones are [made], below). *)
Definition old h (t id : nat) : list V := match value_of h t id with Some v => [v] | None => [] end.
Definition dropped h (t : nat) ev : list V :=
  match ev with
  | (Attach t' id _, Ret _) => if decide (t' = t) then old h t id else []
  | (WriteComp t' id _, Ret (OBool true)) => if decide (t' = t) then old h t id else []
  | (StoreGetMut t' id _, Ret (OBool true)) => if decide (t' = t) then old h t id else []
  | (BatchAttach _ _ t' _, Ret _) => []
  | (RemoveEntity id _, Ret _) => old h t id
  | (QueryMut q _, Ret (OItems l)) => if decide (t ∈ q_muts q) then l.*1 ≫= old h t else []
  | _ => given t ev
  end.
(** The values a call makes of those in the world. *)
Definition made h (t : nat) ev : list V :=
  match ev with
  | (QueryMut q f, Ret (OItems l)) => if decide (t ∈ q_muts q) then l.*1 ≫= (fun id => f t id <$> old h t id) else []
  | _ => []
  end.
(** Summed over a history: [g] of every call, with the history before it. *)
Fixpoint sum_from (g : history V -> event V -> list V) h (rest : history V) : list V :=
  match rest with
  | [] => []
  | ev :: rest' => g h ev ++ sum_from g (h ++ [ev]) rest'
  end.
Definition all_dropped t h : list V := sum_from (fun h => dropped h t) [] h.
Definition all_made t h : list V := sum_from (fun h => made h t) [] h.
End value.

(** The order in which a storage lists its components. *)
From stdpp Require Import prelude list.
From Verif Require Import Base Api ModelStep.

Section order.
Context {V : Type}.

(** take [id] out; the last one fills the gap *)
Definition swap_out (id : nat) (l : list nat) : list nat :=
  match list_find (fun e => e = id) l, last l with
  | Some (i, _), Some x => take (length l - 1) (<[i := x]> l)
  | _, _ => l
  end.
Definition order_event (t : nat) (l : list nat) (ev : op V * outcome (out V)) : list nat :=
  match ev with
  | (Attach t' id _, Ret _) => if decide (t' = t) then if decide (id ∈ l) then l else l ++ [id] else l
  | (BatchAttach lo hi t' _, Ret _) => if decide (t' = t) then l ++ seq lo (hi - lo) else l
  | (Detach t' id, Ret _) => if decide (t' = t) then swap_out id l else l
  | (RemoveEntity id _, Ret _) => swap_out id l
  | _ => l
  end.
(** the entities having component [t], in the order they are stored, judging
    by what the calls answered *)
Definition order_of (h : list (op V * outcome (out V))) (t : nat) : list nat := foldl (order_event t) [] h.

(** no call names [t] as a type of a group *)
Definition never_grouped (ops : list (op V)) (t : nat) : Prop := forall k a b, MakeGroup k a b ∈ ops -> a <> t /\ b <> t.
(** the table of storages is enumerated without repetition (a fact) *)
Definition once (ops : list (op V)) : Prop := forall id ord, RemoveEntity id ord ∈ ops -> NoDup ord.
End order.

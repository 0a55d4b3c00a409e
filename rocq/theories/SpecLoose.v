(** Vocabulary for histories that need not keep to the rules of use. *)
From stdpp Require Import prelude list gmap.
From Verif Require Import Base Api ModelStep Spec History.

(** ** Specification: the effect of one call on the component [t] of entity
    [id].  [ask] tells what any call would answer just before; [old] and [new]
    are the component before and after. *)
Section spec.
Context {V : Type}.

Definition yes (r : outcome (out V)) : bool := match r with Ret (OBool true) => true | _ => false end.
(** the entity at place [k] of the storage of [t], as a query shows it *)
Definition at_place (ask : op V -> outcome (out V)) (t k : nat) : option nat :=
  match ask (Query (QRef false t)) with Ret (OItems l) => l.*1 !! k | _ => None end.
Definition effect_on (ask : op V -> outcome (out V)) (o : op V) (t id : nat) (old new : option V) : Prop :=
  match o, ask o with
  (* attaching to an entity said to exist writes the component even if the
     call panics afterwards (while updating the groups) *)
  | Attach t' i v, _ => new = if decide (t' = t /\ i = id /\ yes (ask (Exist i)) = true /\ yes (ask (HasRegistered t')) = true) then Some v else old
  | WriteComp t' i v, Ret (OBool true) | StoreGetMut t' i v, Ret (OBool true) => new = if decide (t' = t /\ i = id) then Some v else old
  | StoreDataSet t' k v, Ret (OBool true) => new = if decide (t' = t /\ at_place ask t' k = Some id) then Some v else old
  | Detach t' i, Ret _ => new = if decide (t' = t /\ i = id) then None else old
  | BatchAttach lo hi t' vs, Ret _ => new = if decide (t' = t /\ lo <= id < hi) then vs !! (id - lo) else old
  | RemoveEntity i _, Ret _ => new = if decide (i = id) then None else old
  (* a removal that stops midway may have taken some of the entity's components *)
  | RemoveEntity i _, _ => new = old \/ (i = id /\ yes (ask (Exist i)) = true /\ new = None)
  | QueryMut q f, Ret (OItems l) => new = if decide (id ∈ l.*1 /\ t ∈ q_muts q) then f t id <$> old else old
  | _, _ => new = old
  end.

Implicit Types (ops : list (op V)) (t id : nat) (v : V) (q : query).

(** What is still asked of the call [o] made after [ops]:
    ids are not zero and the component table enumerated by [remove_entity] is
    the whole table (facts, not rules); a batch attach hits no entity having
    the type (C07); no query that is undefined behaviour (C33), and no
    rewriting through group queries. *)
Definition loose_call ops (o : op V) : Prop :=
  match o with
  | Attach _ id _ | WriteComp _ id _ | StoreGetMut _ id _ => 1 <= id
  | RemoveEntity _ ord => forall t, answer ops (HasRegistered t) = Ret (OBool true) -> t ∈ ord
  | BatchAttach lo hi t _ => 1 <= lo /\ forall id, lo <= id < hi -> answer ops (StoreExist t id) <> Ret (OBoolOpt (Some true))
  | Query q => q_plain q = true \/ answer ops (Query q) <> UB
  | QueryMut q _ => q_plain q = true
  | _ => True
  end.
Definition loose ops : Prop := forall pre o post, ops = pre ++ o :: post -> loose_call pre o.

(** Calls on [id] that stop midway, and writes by position in [data_mut()]:
    the ones [value_of] (History.v) does not count. *)
Definition tears (ask : op V -> outcome (out V)) (o : op V) id : Prop :=
  match o, ask o with
  | Attach _ _ _, Ret _ | RemoveEntity _ _, Ret _ => False
  | Attach _ i _, _ | RemoveEntity i _, _ => i = id /\ yes (ask (Exist i)) = true
  | StoreDataSet t k _, Ret (OBool true) => at_place ask t k = Some id
  | _, _ => False
  end.
Definition torn ops id : Prop := exists pre o post, ops = pre ++ o :: post /\ tears (answer pre) o id.

(** what reading the components shows *)
Definition reads ops (val : nat -> nat -> option V) : Prop := forall t id, answer ops (ReadComp t id) = Ret (OVal (val t id)).
Definition all_registered ops q : Prop := forall t m, (t, m) ∈ q_refs q -> answer ops (HasRegistered t) = Ret (OBool true).

(** The only rule: no call removes the id that has waited longest (of which
    [exist] says that it exists, C13).  Ids are not zero (a fact). *)
Definition tidy ops : Prop := forall pre i ord post, ops = pre ++ RemoveEntity i ord :: post ->
  1 <= i /\ last (waiting (seen pre)) <> Some i.

(** The entities of a batch attach come from a handle (a fact). *)
Definition batches_handed ops : Prop := forall pre lo hi t vs post id, ops = pre ++ BatchAttach lo hi t vs :: post -> lo <= id < hi -> id ∈ handed (seen pre).

End spec.

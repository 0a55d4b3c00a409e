(** Vocabulary for the life of a world (PropLife.v, PropLife2.v, PropIds.v). *)
From stdpp Require Import prelude list gmap.
From Verif Require Import Base Api ModelSparse ModelEntity ModelGroup ModelWorld ModelQuery ModelStep ModelConc SpecConc ModelLife
  Spec History SpecLoose.

Section spec.
Context {V : Type}.
Implicit Types (s : life V) (acts : list (action V)) (w : world V).

(** what the call [o] answers on [w] *)
Definition tells w (o : op V) : outcome (out V) := (step o w).1.

(** ** What is asked of the actions *)

(** An exclusive call: ids are not zero and [remove_entity] enumerates the
    whole table (facts); a batch attach hits no entity having the type (C07);
    no group query (C30, C33 say why). *)
Definition may_call w (o : op V) : Prop :=
  match o with
  | Attach _ id _ | WriteComp _ id _ | StoreGetMut _ id _ => 1 <= id
  | RemoveEntity _ ord => forall t, tells w (HasRegistered t) = Ret (OBool true) -> t ∈ ord
  | BatchAttach lo hi t _ => 1 <= lo /\ forall id, lo <= id < hi -> shows w t id = None
  | Query q | QueryMut q _ => q_plain q = true
  | _ => True
  end.
(** A step of a user: the same for its attaches. *)
Definition may_step (i : nat) (c : conf V) : Prop :=
  match did i c with
  | Some (BPut _ id _) => 1 <= id
  | Some (BBatch t lo hi _) => 1 <= lo /\ forall id, lo <= id < hi -> shows (cf_world c) t id = None
  | _ => True
  end.
Definition may s (a : action V) : Prop :=
  match a with
  | Enter c => plain_client c
  | Move i => may_step i (conf_of s)
  | Do o => may_call (lf_world s) o
  end.
(** every action of [acts] is so when it is made *)
Definition orderly acts : Prop := forall pre a post s, acts = pre ++ a :: post -> lived pre born = Some s -> may s a.

(** ** Components *)

(** What an action does to the component [t] of entity [id]. *)
Definition action_on s (a : action V) (t id : nat) (old new : option V) : Prop :=
  match a with
  | Enter _ => new = old
  | Move i => match did i (conf_of s) with Some lab => work_on (lf_world s) lab t id old new | None => new = old end
  | Do o => effect_on (tells (lf_world s)) o t id old new
  end.
(** Calls that only look at components. *)
Definition looks (o : op V) : bool :=
  match o with
  | HasRegistered _ | ReadComp _ _ | StoreCount _ | StoreIsEmpty _ | StoreExist _ _ | StoreGet _ _ | StoreData _ => true
  | Query q => q_plain q
  | _ => false
  end.

(** ** Threads and exclusive calls of a life *)

(** the clients that entered, in order, and the order they moved in *)
Fixpoint entered acts : list (client V) :=
  match acts with [] => [] | Enter c :: acts' => c :: entered acts' | _ :: acts' => entered acts' end.
Fixpoint moved acts : list nat :=
  match acts with [] => [] | Move i :: acts' => i :: moved acts' | _ :: acts' => moved acts' end.
Definition exclusive (a : action V) : bool := match a with Do _ => true | _ => false end.
(** the exclusive calls and what they answered *)
Fixpoint exclusives acts s : history V :=
  match acts with
  | [] => []
  | a :: acts' =>
      match act1 a s with
      | Some s' => match a with Do o => [(o, tells (lf_world s) o)] | _ => [] end ++ exclusives acts' s'
      | None => []
      end
  end.

(** ** Ids *)

(** The calls that concern ids made in a life, in the order in which they took
    effect: an exclusive one when it is made (a removal only if it returns); a
    thread's when it makes the step in which the entity manager changes.
    ([RemoveEntity id []]: the removal as far as ids are concerned.) *)
Definition deed s (a : action V) : list (op V) :=
  match a with
  | Enter _ => []
  | Move i =>
      match did i (conf_of s) with
      | Some BNew => [CreateEntity]
      | Some (BAlloc n) => [CreateEntities n]
      | Some (BFree id) => [RemoveEntity id []]
      | _ => []
      end
  | Do CreateEntity => [CreateEntity]
  | Do (CreateEntities n) => [CreateEntities n]
  | Do (RemoveEntity id ord) => match tells (lf_world s) (RemoveEntity id ord) with Ret _ => [RemoveEntity id []] | _ => [] end
  | Do _ => []
  end.
Fixpoint deeds acts s : list (op V) :=
  match acts with
  | [] => []
  | a :: acts' => match act1 a s with Some s' => deed s a ++ deeds acts' s' | None => [] end
  end.
(** Nobody removes the id that has waited longest (C13: it is said to exist);
    ids are not zero. *)
Definition removes s (a : action V) : option nat :=
  match a with
  | Enter _ => None
  | Move i => match did i (conf_of s) with Some (BFree id) => Some id | _ => None end
  | Do (RemoveEntity id _) => Some id
  | Do _ => None
  end.
Definition neat acts : Prop := forall pre a post s id, acts = pre ++ a :: post -> lived pre born = Some s -> removes s a = Some id ->
  1 <= id /\ last (waiting (seen (deeds pre born))) <> Some id.

(** ** Who was given which ids (PropIds.v) *)
(** [told acts s0 i]: the answers the [i]th of the threads that entered since
    [s0] has got *)
Definition told acts s0 (i : nat) : history V :=
  match entered acts !! i with Some cl => (follow i (enter cl) (moved acts) (start (lf_world s0) (entered acts))).1 | None => [] end.
(** the id a call removed *)
Definition removed_ev (ev : event V) : list nat := match ev with (RemoveEntity i _, Ret _) => [i] | _ => [] end.
End spec.
(** how often [x] is in the list *)
Definition times (x : nat) (l : list nat) : nat := count_occ Nat.eq_dec l x.
Definition one (P : Prop) `{Decision P} : nat := if decide P then 1 else 0.

(** Vocabulary for lives in which calls are broken off (PropBreak.v).
    Nothing here depends on proofs. *)
From stdpp Require Import prelude list gmap.
From Verif Require Import Base Api ModelSparse ModelEntity ModelGroup ModelWorld ModelQuery ModelStep ModelConc SpecConc ModelLife
  Spec History SpecLoose SpecLife ModelBreak.

Section spec.
Context {V : Type}.
Implicit Types (s : life V) (bs : list (baction V)) (w : world V).

(** What is asked of actions (SpecLife.v); of a user broken off only that it
    goes on without group queries. *)
Definition mayx s (b : baction V) : Prop :=
  match b with BAct a => may s a | Break _ _ _ _ cl => plain_client cl end.
Definition orderlyx bs : Prop := forall pre b post s, bs = pre ++ b :: post -> livedb pre born = Some s -> mayx s b.

(** What an action does to the component [t] of entity [id].  A call broken
    off leaves components alone; broken off in the middle of the work for a
    group it may have removed what it was about to remove. *)
Definition action_onb s (b : baction V) (t id : nat) (old new : option V) : Prop :=
  match b with
  | BAct a => action_on s a t id old new
  | Break false _ _ _ _ => new = old
  | Break true i _ _ _ => match did i (conf_of s) with Some lab => work_on (lf_world s) lab t id old new | None => False end
  end.

(** the exclusive calls and what they answered *)
Fixpoint exclusivesb bs s : history V :=
  match bs with
  | [] => []
  | b :: bs' =>
      match act1b b s with
      | Some s' => match b with BAct (Do o) => [(o, tells (lf_world s) o)] | _ => [] end ++ exclusivesb bs' s'
      | None => []
      end
  end.

(** [b] is not an exclusive call, nor does it break off user [i] *)
Definition leaves (i : nat) (b : baction V) : bool :=
  match b with BAct (Do _) => false | BAct _ => true | Break _ j _ _ _ => negb (j =? i) end.
(** how often user [i] moves *)
Fixpoint moves_of (i : nat) bs : nat :=
  match bs with
  | [] => 0
  | BAct (Move j) :: bs' => (if j =? i then 1 else 0) + moves_of i bs'
  | _ :: bs' => moves_of i bs'
  end.

(** ** An exclusive call's turn (C54_turn) *)
(** [e]: what a client that sticks to the order of locks (SpecConc.v) keeps:
    nothing, a handle, or one other object *)
Definition keeps_like (held : option bool) (e : list (obj V)) : Prop :=
  match held with
  | None => e = []
  | Some true => exists ob, e = [ob] /\ obj_holds ob = [(LMan, false)]
  | Some false => exists ob, e = [ob]
  end.
(** No exclusive call; who enters, and who goes on after being broken off,
    takes locks in order. *)
Definition in_turn (rank : tid -> nat) (gq : bool) w (b : baction V) : Prop :=
  match b with
  | BAct (Enter c) => SpecConc.tidy rank gq w None c
  | BAct (Move _) => True
  | BAct (Do _) => False
  | Break _ _ _ e cl => exists held, keeps_like held e /\ SpecConc.tidy rank gq w held cl
  end.

(** ** Values and ids (PropBreak2.v) *)
(** the programs of the users: of those that enter, and what those broken off
    go on with *)
Fixpoint programs bs : list (client V) :=
  match bs with [] => [] | BAct (Enter c) :: bs' | Break _ _ _ _ c :: bs' => c :: programs bs' | _ :: bs' => programs bs' end.
(** [deeds], [neat] of SpecLife.v: the creations and removals that took
    effect.  Breaking off is none. *)
Fixpoint deedsx bs s : list (op V) :=
  match bs with
  | [] => []
  | b :: bs' =>
      match act1b b s with
      | Some s' => match b with BAct a => deed s a | Break _ _ _ _ _ => [] end ++ deedsx bs' s'
      | None => []
      end
  end.
Definition neatx bs : Prop := forall pre a post s id, bs = pre ++ BAct a :: post -> livedb pre born = Some s -> removes s a = Some id ->
  1 <= id /\ last (waiting (seen (deedsx pre born))) <> Some id.

(** ** A user alone (PropBreak3.v) *)
(** the types of the components [id] has, in the order in which [remove_entity] finds them *)
Definition holding (ops : list (op V)) id (ord : list tid) : list tid := filter (fun t => is_Some (value_of (seen ops) t id)) ord.
(** [o] is a call that works on at most one storage, or on the manager or a
    resource, once: not [remove_entity], nor attaching or detaching a type
    that is in a group.  (Mutable iteration is the user's loop, not a call;
    registering and [make_group] take [&mut World].) *)
Definition single (ops : list (op V)) (o : op V) : Prop :=
  match o with
  | Attach t _ _ | Detach t _ => forall k a a', (k, a, a') ∈ groups_of (seen ops) -> a <> t /\ a' <> t
  | RemoveEntity _ _ | QueryMut _ _ | Register _ | MakeGroup _ _ _ | RegisterRes _ _ | BatchAttach _ _ _ _ => False
  | _ => True
  end.
End spec.

(** Threads that own the values they give: the vocabulary of the theorems on
    values and threads in PropValue2.v (C52). *)
From stdpp Require Import prelude list gmap.
From Verif Require Import Base Api ModelSparse ModelEntity ModelGroup ModelWorld ModelQuery ModelStep ModelConc Spec History SpecValue SpecConc.

Section honest.
Context {V : Type}.

(** [honest t hand cl]: a thread that has, of type [t], the values [hand], and
    gives (attaches, writes) only values it has: those it had in the beginning
    and those a detach returned to it.  Which call it makes next may depend on
    the answers.  (In Rust, a client that does not clone.)  It does not change
    values in place by a function of the old value. *)
Definition taken (t t' : nat) (r : outcome (option V)) : list V :=
  match r with Ret (Some v) => if decide (t' = t) then [v] else [] | _ => [] end.
Fixpoint honest (t : nat) (hand : list V) (cl : client V) : Prop :=
  match cl with
  | Done => True
  | Call o k | Use _ o k =>
      in_place o = false /\
      exists left, hand ≡ₚ given t (o, Panic) ++ left /\ forall r, honest t (left ++ returned t (o, r)) (k r)
  | HAttach _ t' v k =>
      exists left, hand ≡ₚ (if decide (t' = t) then [v] else []) ++ left /\ forall r, honest t left (k r)
  | HBatch _ t' vs k =>
      exists left, hand ≡ₚ (if decide (t' = t) then vs else []) ++ left /\ forall r, honest t left (k r)
  | HDetach _ t' k => forall r, honest t (hand ++ taken t t' r) (k r)
  | GetEntity _ k => forall r, honest t hand (k r)
  | NewEntity k => forall r, honest t hand (k r)
  | NewEntities _ k => forall r, honest t hand (k r)
  | GetStore _ _ k | GetComp _ _ _ k | GetRes _ _ k => forall r, honest t hand (k r)
  | Open _ k => forall r, honest t hand (k r)
  | ICall _ c k => match c with CWrite _ => False | _ => True end /\ forall r, honest t hand (k r)
  | DropObj _ k => honest t hand k
  end.

(** the storage of type [t] shows the values [d] in the world [w] *)
Definition stores (w : world V) (t : nat) (d : list V) : Prop := (step (StoreData t) w).1 = Ret (OData (Some d)).

(** Threads that make calls one after the other, none of which changes values
    in place.  [underway]: the values a thread has given in the call it is in
    the middle of. *)
Fixpoint no_in_place (cl : client V) : Prop :=
  match cl with Call o k => in_place o = false /\ forall r, no_in_place (k r) | _ => True end.
Definition underway (t : nat) (ph : phase (V := V)) : list V :=
  match ph with Idle => [] | Busy o _ _ _ | Unwinding o _ _ => given t (o, Panic) end.
End honest.

(** Outcomes, a state monad that keeps the state after a panic, and the
    [std::vec::Vec] primitives the crate uses. *)
From stdpp Require Import prelude list.

(** What a call can do.  [Ret a]: returns [a].  [Panic]: unwinds (assert!,
    unwrap on None, out-of-range [] indexing, ...).  [UB]: reaches undefined
    behaviour (get_unchecked out of range, wrong unchecked downcast).
    [Block]: acquires a lock that the same thread already holds in a
    conflicting mode, so it never returns. *)
Inductive outcome (A : Type) : Type :=
| Ret (a : A)
| Panic
| UB
| Block.
Arguments Ret {A} a.
Arguments Panic {A}.
Arguments UB {A}.
Arguments Block {A}.

(** A method taking [&mut self]: outcome and the state it leaves behind, also
    when it does not return normally. *)
Definition M (S A : Type) : Type := S -> outcome A * S.

Definition ret {S A} (a : A) : M S A := fun s => (Ret a, s).
Definition bind {S A B} (m : M S A) (k : A -> M S B) : M S B := fun s =>
  match m s with
  | (Ret a, s') => k a s'
  | (Panic, s') => (Panic, s')
  | (UB, s') => (UB, s')
  | (Block, s') => (Block, s')
  end.
Definition panic {S A} : M S A := fun s => (Panic, s).
Definition ub {S A} : M S A := fun s => (UB, s).
Definition get {S} : M S S := fun s => (Ret s, s).
Definition put {S} (s' : S) : M S unit := fun _ => (Ret tt, s').
Definition lift {S A} (o : outcome A) : M S A := fun s => (o, s).

Notation "'let!' x ':=' m 'in' k" := (bind m (fun x => k))
  (at level 200, x pattern, m at level 100, k at level 200,
   format "'[v' 'let!'  x  ':='  m  'in' '/' k ']'").
Notation "m >>! k" := (bind m (fun _ => k)) (at level 95, right associativity).

(** [assert!(b)] *)
Definition assert {S} (b : bool) : M S unit := if b then ret tt else panic.

(** [opt.unwrap()] / [opt.expect(..)] / checked indexing [l[i]] read as
    [unwrap (l !! i)] *)
Definition unwrap {S A} (o : option A) : M S A :=
  match o with Some a => ret a | None => panic end.

(** [for i in start..start+n { f(i) }] *)
Fixpoint for_range {S} (start n : nat) (f : nat -> M S unit) : M S unit :=
  match n with
  | 0 => ret tt
  | Datatypes.S n' => f start >>! for_range (Datatypes.S start) n' f
  end.

(** [for x in l { f(x) }] *)
Fixpoint for_each {S A} (l : list A) (f : A -> M S unit) : M S unit :=
  match l with
  | [] => ret tt
  | x :: l' => f x >>! for_each l' f
  end.

(** [Vec::swap(i,j)]; [None] where Rust panics. *)
Definition vec_swap {A} (l : list A) (i j : nat) : option (list A) :=
  match l !! i, l !! j with
  | Some x, Some y => Some (<[j := x]> (<[i := y]> l))
  | _, _ => None
  end.

(** [Vec::swap_remove(i)]: the removed element and the shortened vector;
    [None] where Rust panics. *)
Definition vec_swap_remove {A} (l : list A) (i : nat) : option (A * list A) :=
  match l !! i, last l with
  | Some x, Some y => Some (x, take (length l - 1) (<[i := y]> l))
  | _, _ => None
  end.

(** [l[i] = x]; [None] where Rust panics. *)
Definition vec_set {A} (l : list A) (i : nat) (x : A) : option (list A) :=
  match l !! i with
  | Some _ => Some (<[i := x]> l)
  | None => None
  end.

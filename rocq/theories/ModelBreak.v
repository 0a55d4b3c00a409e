(** Calls broken off by a panic of the user's code.

    The only code of the user that runs inside a call is [Drop] of a component
    or resource value (besides that the crate calls nothing of the user's; an
    iterator that panics in the middle of a [for] is between two calls).  If it
    panics, the call is broken off: its remaining steps do not happen, and the
    guards it has and those of the frames the panic passes through are dropped
    one by one.  parking_lot's locks (Cargo.toml:15) are not poisoned: whoever waits for
    them gets them.  The thread ends, or catches the panic and goes on.

    Where a value is dropped inside a call: at the end of one of the pieces of
    work of ModelConc.v ([SparseSet::add] overwrites the data of an entity,
    src/sparse_set.rs:36-39, the new value being in place when the old one
    has been dropped, also by unwinding; [ComponentStorage::remove] drops what
    [SparseSet::remove] returned, src/component.rs:43-45; a guard's
    [DerefMut] assignment) - with one exception: the work of [remove_entity]
    for a full-owning group removes the entity from one storage and then from
    the other (src/world.rs:122-123), and dropping the first component comes in between
    ([half_kill]).
    To be on the safe side a thread may be broken off here at any moment, also
    between pieces, where no code of the user runs.

    An exclusive call broken off is one made by a thread that has the world
    to itself: it enters, moves and is broken off.  (In [register] and
    [make_group] no value is dropped; [register_resource] drops the old
    value after the new one is in place: nothing is left to break off.) *)
From stdpp Require Import prelude list gmap.
From Verif Require Import Base Api ModelSparse ModelEntity ModelGroup ModelWorld ModelQuery ModelStep ModelConc ModelLife.

Section breaks.
Context {V : Type}.

(** [Break half i h e cl]: user [i]'s program is broken off: the guards [h] are
    dropped in this order, the objects [e] (which it created outside of what
    the panic unwinds) are kept, and it goes on as [cl] ([Done] for a thread
    that ends).
    [half]: this happens between the two removals of a full-owning group. *)
Inductive baction : Type :=
| BAct (a : action V)
| Break (half : bool) (i : nat) (h : list (lock * bool)) (e : list (obj V)) (cl : client V).

(** The match arms of src/world.rs:115-139 up to the first removal. *)
Definition half_kill (j id : nat) : M (world V) unit :=
  run_group_at j (full_remove id >>! on_a (cs_remove id)) (part_remove id >>! on_a (cs_remove id)) (non_remove id).

(** in the middle of its program: not over, not crashed or hung for ever *)
Definition midway (th : thread V) : bool := match th_prog th with PAcq _ _ _ | PRel _ _ _ | PAct _ _ _ => true | _ => false end.
(** Simplification: no iterator among the objects kept.  (Which objects the
    thread has is not recorded in ModelConc.v, only their guards are: what is
    proved holds for any handles and guards that have these locks.) *)
Definition no_iter (ob : obj V) : bool := match ob with JIter _ _ _ => false | _ => true end.
(** what dropping a component in the middle of a piece leaves *)
Definition half_done (th : thread V) (w : world V) : option (world V) :=
  match th_prog th with
  | PAct (BKill j id) _ _ => match half_kill j id w with (Ret _, w') => Some w' | _ => None end
  | _ => None
  end.
Definition break_off (half : bool) (i : nat) (h : list (lock * bool)) (e : list (obj V)) (cl : client V) (s : life V) : option (life V) :=
  match lf_users s !! i with
  | None => None
  | Some th =>
      if midway th && forallb no_iter e && bool_decide (h ++ all_holds e ≡ₚ th_holds th) then
        match (if half then half_done th (lf_world s) else Some (lf_world s)) with
        | Some w' => Some (Life w' (<[i := Th (th_holds th) (rels h (compile e cl))]> (lf_users s)))
        | None => None
        end
      else None
  end.
Definition act1b (b : baction) (s : life V) : option (life V) :=
  match b with
  | BAct a => act1 a s
  | Break half i h e cl => break_off half i h e cl s
  end.
Fixpoint livedb (bs : list baction) (s : life V) : option (life V) :=
  match bs with
  | [] => Some s
  | b :: bs' => match act1b b s with Some s' => livedb bs' s' | None => None end
  end.
End breaks.
Arguments baction : clear implicits.

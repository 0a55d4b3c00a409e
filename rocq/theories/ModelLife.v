(** The whole life of a world: shared by threads, then used exclusively
    ([&mut World]: [register], [make_group], [register_resource] and any other
    call), then shared again, and so on.
    This is what systems do with the [Arc<RwLock<World>>] of the [System]
    trait (src/system/mod.rs:7-11, src/lib.rs:66-79): [world.read()] gives
    [&World], [world.write()] gives [&mut World].  It is also what
    [thread::scope] allows.
    Simplification: the lock around the world is not a lock of ModelConc.v;
    what it (and the borrow checker) guarantees is kept: an exclusive call is
    made only when every thread that borrowed the world is done with it. *)
From stdpp Require Import prelude list gmap.
From Verif Require Import Base Api ModelSparse ModelEntity ModelGroup ModelWorld ModelQuery ModelStep ModelConc.

Section life.
Context {V : Type}.

(** The world, and the threads that borrowed it since the last exclusive
    call.  (The threads that are done stay in the list until then.) *)
Record life : Type := Life { lf_world : world V; lf_users : list (thread V) }.

(** [Enter c]: a thread borrows the world and is going to run [c]; what
    [c] is may depend on anything that happened before.
    [Move i]: user [i] makes its next step (ModelConc.v).
    [Do o]: an exclusive call. *)
Inductive action : Type :=
| Enter (c : client V)
| Move (i : nat)
| Do (o : op V).

(** The user's program is over.  (That it then has no guard left is proved:
    C54_nothing_left.) *)
Definition over (th : thread V) : bool := match th_prog th with PRet _ => true | _ => false end.
Definition conf_of (s : life) : conf V := Cf (lf_world s) (lf_users s).

(** [None]: not possible, or (for [Do]) a call that never returns. *)
Definition act1 (a : action) (s : life) : option life :=
  match a with
  | Enter c => Some (Life (lf_world s) (lf_users s ++ [Th [] (compile [] c)]))
  | Move i =>
      match cstep i (conf_of s) with
      | Some c' => Some (Life (cf_world c') (cf_threads c'))
      | None => None
      end
  | Do o =>
      if forallb over (lf_users s) then
        match step o (lf_world s) with
        | (Ret _, w') | (Panic, w') => Some (Life w' [])
        | (UB, _) | (Block, _) => None
        end
      else None
  end.
Fixpoint lived (acts : list action) (s : life) : option life :=
  match acts with
  | [] => Some s
  | a :: acts' => match act1 a s with Some s' => lived acts' s' | None => None end
  end.
(** [World::new()], src/world.rs:23-30, borrowed by nobody *)
Definition born : life := Life w_new [].
End life.
Arguments life : clear implicits.
Arguments action : clear implicits.

(** The life of a world (ModelLife.v) in which guards are forgotten
    ([mem::forget], a leaked box, an [Rc] cycle): their locks stay as they were
    left, also when the world is used exclusively afterwards, because every
    call of [World] takes its locks through [.read()] and [.write()], the
    [&mut self] ones too (src/world.rs:262-306, 97-159); none uses [get_mut].

    Simplifications: guards are forgotten one by one, at a moment when the
    user would drop them; the model allows this for every guard, also for
    those local to a call, which no user can forget.  A lock is granted
    whenever no conflicting guard is alive (as in ModelConc.v). *)
From stdpp Require Import prelude list gmap.
From Verif Require Import Base Api ModelSparse ModelEntity ModelGroup ModelWorld ModelQuery ModelStep ModelConc ModelLife.

Section forget.
Context {V : Type}.
Notation world := (world V).
Implicit Types (w : world).

(** * The exclusive calls lock by lock *)

(** Ownership check of make_group, src/world.rs:264-279: every group in turn
    is read-locked and its types looked at. *)
Definition owned_at (g : group) (i : nat) w : bool :=
  match w_groups w !! i with Some h => existsb (g_owned g) (g_owning h) | None => false end.
Fixpoint p_owned (g : group) (i n : nat) : prog V bool :=
  match n with
  | 0 => PRet false
  | S n' =>
      acq (LGroup i) false ;;;
      do! b <- look (owned_at g i) in
      rel (LGroup i) false ;;;
      if (b : bool) then PRet true else p_owned g (S i) n'
  end.
(** [make_group], src/world.rs:260-304: [has_group] (src/world.rs:308-317),
    the ownership check, the push; then the new group is write-locked, and its
    storages as in [p_group_at]. *)
Definition p_make_group (k : gkind) (a b : tid) : prog V unit :=
  let g := new_group k a b in
  do! n <- look n_groups in
  do! found <- p_find_group k a b 0 n in
  passert (negb (bool_decide (is_Some found))) ;;;
  do! c <- p_owned g 0 n in
  passert (negb c) ;;;
  act BWrite (let! w := get in put (set_groups (w_groups w ++ [g]) w)) ;;;
  acq (LGroup n) true ;;;
  p_group_at n BWrite full_make part_make non_make ;;;
  rel (LGroup n) true.
(** An exclusive call.  [register] and [register_resource] take no lock
    (src/world.rs:33-36, 58-67); a batch attach is one through a handle
    (src/entity.rs:161-184); the others are made as on a shared world. *)
Definition p_excl (o : op V) : prog V (out V) :=
  match o with
  | Register _ | RegisterRes _ _ => act BWrite (step o)
  | MakeGroup k a b => p_make_group k a b ;;; PRet OUnit
  | BatchAttach lo hi t vs =>
      acq LMan false ;;; p_batch lo hi t vs ;;; rel LMan false ;;; PRet OUnit
  | _ => p_call o
  end.

(** * Lives with forgotten guards *)

(** [fl_lost]: the forgotten guards. *)
Record flife : Type := FL { fl_life : life V; fl_lost : list (lock * bool) }.
(** [Forget i]: user [i] forgets the guard it would drop now. *)
Inductive faction : Type :=
| FAct (a : action V)
| Forget (i : nat).

(** What the thread does alone (ModelConc.v) while the guards [lost] are alive. *)
Fixpoint alone_among {A} (lost : list (lock * bool)) (p : prog V A) (h : list (lock * bool)) w : outcome A * world * list (lock * bool) :=
  match p with
  | PRet a => (Ret a, w, h)
  | PPanic => (Panic, w, h)
  | PUB => (UB, w, h)
  | PHang => (Block, w, h)
  | PAcq l x k => if conflict (h ++ lost) l x then (Block, w, h) else alone_among lost k ((l, x) :: h) w
  | PRel l x k => alone_among lost k (drop_hold l x h) w
  | PAct _ f k =>
      match f w with
      | (Ret b, w') => alone_among lost (k b) h w'
      | (Panic, w') => (Panic, w', h)
      | (UB, w') => (UB, w', h)
      | (Block, w') => (Block, w', h)
      end
  end.
(** A lock that is thrown away: [register_resource] puts a new one in the
    place of the old (src/world.rs:33-36). *)
Definition renewed (o : op V) (g : lock * bool) : bool :=
  match o with RegisterRes r _ => bool_decide (g.1 = LRes r) | _ => false end.
(** the lock user [i] wants now *)
Definition wanted (i : nat) (c : conf V) : option (lock * bool) :=
  match cf_threads c !! i with Some (Th _ (PAcq l x _)) => Some (l, x) | _ => None end.
Definition dropping (i : nat) (c : conf V) : option (lock * bool) :=
  match cf_threads c !! i with Some (Th _ (PRel l x _)) => Some (l, x) | _ => None end.

(** [None]: not possible (now), or an exclusive call that never returns. *)
Definition fact (b : faction) (s : flife) : option flife :=
  let lost := fl_lost s in
  match b with
  | Forget i =>
      match dropping i (conf_of (fl_life s)), act1 (Move i) (fl_life s) with
      | Some g, Some s' => Some (FL s' (g :: lost))
      | _, _ => None
      end
  | FAct (Move i) =>
      match wanted i (conf_of (fl_life s)) with
      | Some (l, x) => if conflict lost l x then None else (fun s' => FL s' lost) <$> act1 (Move i) (fl_life s)
      | None => (fun s' => FL s' lost) <$> act1 (Move i) (fl_life s)
      end
  | FAct (Enter c) => (fun s' => FL s' lost) <$> act1 (Enter c) (fl_life s)
  | FAct (Do o) =>
      if forallb over (lf_users (fl_life s)) then
        match alone_among lost (p_excl o) [] (lf_world (fl_life s)) with
        (* a guard the call kept would be lost too; a panic drops them *)
        | (Ret _, w', h) => Some (FL (Life w' []) (h ++ filter (fun g => renewed o g = false) lost))
        | (Panic, w', _) => Some (FL (Life w' []) (filter (fun g => renewed o g = false) lost))
        | _ => None
        end
      else None
  end.
Fixpoint flived (bs : list faction) (s : flife) : option flife :=
  match bs with
  | [] => Some s
  | b :: bs' => match fact b s with Some s' => flived bs' s' | None => None end
  end.
Definition fborn : flife := FL born [].
End forget.
Arguments flife : clear implicits.
Arguments faction : clear implicits.

(** Model of [EntityManager], src/entity.rs:195-298. *)
From stdpp Require Import prelude list.
From Verif Require Import Base.

(** src/entity.rs:196-201 *)
Inductive flag : Type :=
| Avail (next : nat)     (* Available(EntityId) *)
| Unavail (idx : nat).   (* Unavailable(usize) *)

(** src/entity.rs:204-211 *)
Record em : Type := EM { flags : list flag; ents : list nat }.

(** src/entity.rs:214-219 *)
Definition em_new : em := EM [Unavail 0] [].

(** src/entity.rs:221-242 *)
Definition em_allocate : M em nat :=
  let! s := get in
  let! f0 := unwrap (flags s !! 0) in
  match f0 with
  | Avail last_id =>
      let! new_id := unwrap (flags s !! last_id) in
      let ents' := ents s ++ [last_id] in
      put (EM (flags s) ents') >>!
      let! fl1 := unwrap (vec_set (flags s) last_id (Unavail (length ents' - 1))) in
      put (EM fl1 ents') >>!
      let! fl2 := unwrap (vec_set fl1 0 new_id) in
      put (EM fl2 ents') >>!
      ret last_id
  | Unavail _ =>
      let id := length (flags s) in
      let ents' := ents s ++ [id] in
      put (EM (flags s ++ [Unavail (length ents' - 1)]) ents') >>!
      ret id
  end.

(** src/entity.rs:246-264.  The two push loops are written as appends.
    Result: the range [start..end). [usize] overflow: see ModelOverflow.v. *)
Definition em_allocate_n (n : nat) : M em (nat * nat) :=
  let! s := get in
  let start_id := length (flags s) in
  let start_index := length (ents s) in
  put (EM (flags s ++ map Unavail (seq start_index n))
          (ents s ++ seq start_id n)) >>!
  ret (start_id, start_id + n).

(** src/entity.rs:267-279 *)
Definition em_remove (id : nat) : M em unit :=
  let! s := get in
  let! f := unwrap (flags s !! id) in
  match f with
  | Unavail index =>
      let! l := unwrap (last (ents s)) in
      let! fl1 := unwrap (vec_set (flags s) l (Unavail index)) in
      put (EM fl1 (ents s)) >>!
      let! re := unwrap (vec_swap_remove (ents s) index) in
      put (EM fl1 re.2) >>!
      let! f0 := unwrap (fl1 !! 0) in
      let! fl2 := unwrap (vec_set fl1 id f0) in
      put (EM fl2 re.2) >>!
      let! fl3 := unwrap (vec_set fl2 0 (Avail id)) in
      put (EM fl3 re.2)
  | Avail _ => ret tt
  end.

(** src/entity.rs:281-287: indexing panics beyond the table. *)
Definition em_has (s : em) (id : nat) : outcome bool :=
  match flags s !! id with
  | Some (Unavail _) => Ret true
  | Some (Avail _) => Ret false
  | None => Panic
  end.

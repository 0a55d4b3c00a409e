(** [EntityManager::allocate_n] on a machine: [usize] has 64 bits and memory
    is finite.  ModelEntity.v has the same function over unbounded numbers;
    PropOverflow.v compares the two. *)
From stdpp Require Import prelude list numbers.
From Verif Require Import Base ModelEntity ModelWorld.

(** The numbers of type [usize] are those below [2^64]. *)
Definition word : N := (2 ^ 64)%N.

(** How the crate was compiled and how long its vectors can get.  In a debug
    build [a + b] panics on overflow, in a release build it wraps.  A vector
    that would get longer than [room] makes [push] panic ("capacity overflow";
    simplification: an allocation failure aborts the process, which is also
    modelled as a panic). *)
Record machine : Type := Machine { release : bool; room : N }.

(** [a + b] in [usize] *)
Definition add_usize {S} (mc : machine) (a b : N) : M S N :=
  if (a + b <? word)%N then ret (a + b)%N
  else if release mc then ret ((a + b) mod word)%N else panic.

(** [EntityId::new_unchecked(x)]: UB for 0 (NonZeroUsize) *)
Definition new_unchecked {S} (x : N) : M S N := if (x =? 0)%N then ub else ret x.

(** [for i in lo..hi { v.push(..) }]: how many pushes there are, and how many
    of them succeed *)
Definition pushes (lo hi : N) : N := (hi - lo)%N.
Definition pushed (mc : machine) (len lo hi : N) : N := N.min (pushes lo hi) (room mc - len)%N.
Definition pushes_fit (mc : machine) (len lo hi : N) : bool := (pushes lo hi <=? room mc - len)%N.

(** src/entity.rs:246-264, statement by statement *)
Definition em_allocate_n_on (mc : machine) (n : N) : M em (N * N) :=
  let! s := get in
  let start_id := N.of_nat (length (flags s)) in
  let! end_id := add_usize mc start_id n in
  let start_index := N.of_nat (length (ents s)) in
  let! end_index := add_usize mc start_index n in
  (* 254-256 *)
  let k := N.to_nat (pushed mc start_id start_index end_index) in
  put (EM (flags s ++ map Unavail (seq (length (ents s)) k)) (ents s)) >>!
  (if pushes_fit mc start_id start_index end_index then ret tt else panic) >>!
  (* 257-260; [id] is not 0 here, it starts at the length of a vector that is
     never empty *)
  let k' := N.to_nat (pushed mc start_index start_id end_id) in
  let! s := get in
  put (EM (flags s) (ents s ++ seq (N.to_nat start_id) k')) >>!
  (if pushes_fit mc start_index start_id end_id then ret tt else panic) >>!
  (* 261-263 *)
  let! lo := new_unchecked start_id in
  let! hi := new_unchecked end_id in
  ret (lo, hi).

(** [World::create_entities] on a machine, src/world.rs:87-94 *)
Definition create_entities_on {V} (mc : machine) (n : N) : M (world V) (N * N) :=
  on_em (em_allocate_n_on mc n).

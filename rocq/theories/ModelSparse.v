(** Model of src/sparse_set.rs: [SparseSet<E,T>] with [E = EntityId]
    (a NonZeroUsize, here a [nat]). *)
From stdpp Require Import prelude list.
From Verif Require Import Base.

Section sparse.
Context {V : Type}.

(** src/sparse_set.rs:4-10.  [indices[e] = Some k] holds the NonZeroUsize
    [k], i.e. dense position + 1, as in the code. *)
Record sset : Type := SS {
  indices : list (option nat);
  entities : list nat;
  sdata : list V
}.

(** src/sparse_set.rs:16-22 *)
Definition ss_new : sset := SS [] [] [].

(** src/sparse_set.rs:24-28 *)
Definition ss_clear (s : sset) : sset := SS [] [] [].

(** The loop [while indices.len() <= e { indices.push(None) }],
    src/sparse_set.rs:33-35 and 58-60.  Simplification: the loop is written
    as one append of its net effect. *)
Definition grow (ind : list (option nat)) (e : nat) : list (option nat) :=
  ind ++ replicate (S e - length ind) None.

(** src/sparse_set.rs:30-46 *)
Definition ss_add (e : nat) (v : V) : M sset unit :=
  let! s0 := get in
  let s := SS (grow (indices s0) e) (entities s0) (sdata s0) in
  put s >>!
  let! slot := unwrap (indices s !! e) in
  match slot with
  | Some k =>
      let! d := unwrap (vec_set (sdata s) (k - 1) v) in
      put (SS (indices s) (entities s) d)
  | None =>
      put (SS (<[e := Some (length (entities s) + 1)]> (indices s))
              (entities s ++ [e]) (sdata s ++ [v]))
  end.

(** The loop of add_batch, src/sparse_set.rs:55-65, over
    [entities.iter().enumerate()] starting at position [i]. *)
Fixpoint batch_indices (ind : list (option nat)) (start i : nat)
    (es : list nat) : list (option nat) :=
  match es with
  | [] => ind
  | e :: es' =>
      batch_indices (<[e := Some (start + i + 1)]> (grow ind e)) start (S i) es'
  end.

(** src/sparse_set.rs:48-66 *)
Definition ss_add_batch (es : list nat) (vs : list V) : M sset unit :=
  let! s := get in
  assert (length es =? length vs) >>!
  put (SS (batch_indices (indices s) (length (entities s)) 0 es)
          (entities s ++ es) (sdata s ++ vs)).

(** src/sparse_set.rs:68-81.  Note the guard [indices.len() < entity]
    (strict), copied as written. *)
Definition ss_remove (e : nat) : M sset (option V) :=
  let! s := get in
  if length (indices s) <? e then ret None else
  let! slot := unwrap (indices s !! e) in
  match slot with
  | Some k =>
      let index := k - 1 in
      let! ea := unwrap (entities s !! index) in
      let! el := unwrap (last (entities s)) in
      let! ind1 := unwrap (vec_swap (indices s) ea el) in
      put (SS ind1 (entities s) (sdata s)) >>!
      let! ind2 := unwrap (vec_set ind1 e None) in
      put (SS ind2 (entities s) (sdata s)) >>!
      let! re := unwrap (vec_swap_remove (entities s) index) in
      put (SS ind2 (re.2) (sdata s)) >>!
      let! rd := unwrap (vec_swap_remove (sdata s) index) in
      put (SS ind2 (re.2) (rd.2)) >>!
      ret (Some rd.1)
  | None => ret None
  end.

(** src/sparse_set.rs:116-118 *)
Definition ss_len (s : sset) : nat := length (entities s).

(** src/sparse_set.rs:83-96 *)
Definition ss_swap_by_index (ia ib : nat) : M sset unit :=
  let! s := get in
  if ia =? ib then ret tt else
  if ss_len s <=? ia then panic else
  if ss_len s <=? ib then panic else
  let! ea := unwrap (entities s !! ia) in
  let! eb := unwrap (entities s !! ib) in
  let! ind' := unwrap (vec_swap (indices s) ea eb) in
  put (SS ind' (entities s) (sdata s)) >>!
  let! en' := unwrap (vec_swap (entities s) ia ib) in
  put (SS ind' en' (sdata s)) >>!
  let! d' := unwrap (vec_swap (sdata s) ia ib) in
  put (SS ind' en' d').

(** src/sparse_set.rs:120-127 *)
Definition ss_exist (s : sset) (e : nat) : bool :=
  match indices s !! e with
  | Some (Some _) => true
  | _ => false
  end.

(** src/sparse_set.rs:98-114 (unused by the crate outside its tests) *)
Definition ss_swap_by_entity (ea eb : nat) : M sset unit :=
  let! s := get in
  if negb (ss_exist s ea) then panic else
  if negb (ss_exist s eb) then panic else
  if ea =? eb then ret tt else
  let! sa := unwrap (indices s !! ea) in
  let! ka := unwrap sa in
  let! sb := unwrap (indices s !! eb) in
  let! kb := unwrap sb in
  let! ind' := unwrap (vec_swap (indices s) ea eb) in
  put (SS ind' (entities s) (sdata s)) >>!
  let! en' := unwrap (vec_swap (entities s) (ka - 1) (kb - 1)) in
  put (SS ind' en' (sdata s)) >>!
  let! d' := unwrap (vec_swap (sdata s) (ka - 1) (kb - 1)) in
  put (SS ind' en' d').

(** src/sparse_set.rs:163-171 *)
Definition ss_get_index (s : sset) (e : nat) : option nat :=
  match indices s !! e with
  | Some (Some k) => Some (k - 1)
  | _ => None
  end.

(** src/sparse_set.rs:129-138 and get_mut 146-155 (the location; reading it
    gives the value): checked indexing of [data], so out of range panics. *)
Definition ss_get (s : sset) (e : nat) : outcome (option V) :=
  match indices s !! e with
  | Some (Some k) =>
      match sdata s !! (k - 1) with
      | Some v => Ret (Some v)
      | None => Panic
      end
  | _ => Ret None
  end.

(** Same code, returning the dense position the reference points to
    (src/sparse_set.rs:129-138, 146-155). *)
Definition ss_get_loc (s : sset) (e : nat) : outcome (option nat) :=
  match indices s !! e with
  | Some (Some k) =>
      if k - 1 <? length (sdata s) then Ret (Some (k - 1)) else Panic
  | _ => Ret None
  end.

(** src/sparse_set.rs:140-144 and 157-161: [get_unchecked] on both vectors
    (UB out of range), [unwrap] on the Option in between (panic). *)
Definition ss_get_unchecked_loc (s : sset) (e : nat) : outcome nat :=
  match indices s !! e with
  | None => UB
  | Some None => Panic
  | Some (Some k) =>
      if k - 1 <? length (sdata s) then Ret (k - 1) else UB
  end.

(** src/sparse_set.rs:173-175 *)
Definition ss_is_empty (s : sset) : bool := length (entities s) =? 0.

(** Writing a value through a reference to dense position [i]. *)
Definition ss_poke (i : nat) (v : V) (s : sset) : sset :=
  SS (indices s) (entities s) (<[i := v]> (sdata s)).

(** src/component.rs:38-40, [ComponentStorage::id] *)
Definition ss_id (s : sset) (i : nat) : option nat := entities s !! i.

(** src/component.rs:42-44, [ComponentStorage::remove]: unwraps. *)
Definition cs_remove (e : nat) : M sset unit :=
  let! r := ss_remove e in
  let! _ := unwrap r in
  ret tt.

End sparse.
Arguments sset : clear implicits.

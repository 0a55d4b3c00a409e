(** Model of src/group/mod.rs and src/group/{full_owning,partial_owning,
    non_owning}/mod.rs: the group bookkeeping. *)
From stdpp Require Import prelude list.
From Verif Require Import Base Api ModelSparse.

(** [TypeId] *)
Notation tid := nat (only parsing).

(** src/group/full_owning/mod.rs:15-19 *)
Record full_data : Type := FD { fd_len : nat; fd_a : tid; fd_b : tid }.
(** src/group/partial_owning/mod.rs:7-11 *)
Record part_data : Type := PD { pd_len : nat; pd_a : tid; pd_b : tid }.
(** src/group/non_owning/mod.rs:15-19 *)
Record non_data : Type := ND { nd_set : sset (nat * nat); nd_a : tid; nd_b : tid }.

(** src/group/mod.rs:39-44 *)
Inductive group : Type :=
| GFull (d : full_data)
| GPart (d : part_data)
| GNon (d : non_data).

(** The constructor functions full_owning / partial_owning / non_owning,
    src/group/mod.rs:102-115, with the [Into<Group>] impls src/group/full_owning/mod.rs:160-168,
    partial_owning/mod.rs:133-141, non_owning/mod.rs:136-144. *)
Definition new_group (k : gkind) (a b : tid) : group :=
  match k with
  | KFull => GFull (FD 0 a b)
  | KPart => GPart (PD 0 a b)
  | KNon => GNon (ND ss_new a b)
  end.

(** src/group/mod.rs:55-61 *)
Definition g_types (g : group) : tid * tid :=
  match g with
  | GFull d => (fd_a d, fd_b d)
  | GPart d => (pd_a d, pd_b d)
  | GNon d => (nd_a d, nd_b d)
  end.

(** src/group/mod.rs:47-53, full_owning 28-30, partial_owning 20-22,
    non_owning 28-30 *)
Definition g_len (g : group) : nat :=
  match g with
  | GFull d => fd_len d
  | GPart d => pd_len d
  | GNon d => ss_len (nd_set d)
  end.

(** derived PartialEq of Group (src/group/mod.rs:39) with the manual
    PartialEq of the three data types: same variant, same ordered types. *)
Definition g_eqb (g h : group) : bool :=
  match g, h with
  | GFull d, GFull e => (fd_a d =? fd_a e) && (fd_b d =? fd_b e)
  | GPart d, GPart e => (pd_a d =? pd_a e) && (pd_b d =? pd_b e)
  | GNon d, GNon e => (nd_a d =? nd_a e) && (nd_b d =? nd_b e)
  | _, _ => false
  end.

(** [owned]: full_owning/mod.rs:36-38, partial_owning/mod.rs:28-30,
    non_owning/mod.rs:35-37 *)
Definition g_owned (g : group) (t : tid) : bool :=
  match g with
  | GFull d => (t =? fd_a d) || (t =? fd_b d)
  | GPart d => t =? pd_a d
  | GNon _ => false
  end.

(** [owning]: full_owning/mod.rs:40-42, partial_owning/mod.rs:32-34,
    non_owning/mod.rs:39-41 *)
Definition g_owning (g : group) : list tid :=
  match g with
  | GFull d => [fd_a d; fd_b d]
  | GPart d => [pd_a d]
  | GNon _ => []
  end.

Section group.
Context {V : Type}.

(** [in_components]: identical in the three files (full_owning/mod.rs:44-49,
    partial_owning/mod.rs:36-41, non_owning/mod.rs:43-48). *)
Definition in_components (a b : sset V) (id : nat) : bool :=
  ss_exist a id && ss_exist b id.

(** A group method takes [&mut self] and the two storages. *)
Record gctx (D : Type) : Type := GC { gc_d : D; gc_a : sset V; gc_b : sset V }.
Arguments GC {D}.
Arguments gc_d {D}.
Arguments gc_a {D}.
Arguments gc_b {D}.

Definition on_a {D A} (m : M (sset V) A) : M (gctx D) A := fun c =>
  match m (gc_a c) with (o, a') => (o, GC (gc_d c) a' (gc_b c)) end.
Definition on_b {D A} (m : M (sset V) A) : M (gctx D) A := fun c =>
  match m (gc_b c) with (o, b') => (o, GC (gc_d c) (gc_a c) b') end.
Definition on_d {D A} (m : M D A) : M (gctx D) A := fun c =>
  match m (gc_d c) with (o, d') => (o, GC d' (gc_a c) (gc_b c)) end.

(** * Full-owning *)

(** full_owning/mod.rs:51-68 *)
Definition full_in_group (d : full_data) (a b : sset V) (id : nat) : outcome bool :=
  if negb (in_components a b id) then Ret false else
  match ss_get_index a id, ss_get_index b id with
  | Some ia, Some ib => Ret ((ia <? fd_len d) && (ib <? fd_len d))
  | _, _ => Panic
  end.

Definition full_set_len (n : nat) : M full_data unit := fun d =>
  (Ret tt, FD n (fd_a d) (fd_b d)).

(** full_owning/mod.rs:70-90 *)
Definition full_add (id : nat) : M (gctx full_data) unit :=
  let! c := get in
  if negb (in_components (gc_a c) (gc_b c) id) then ret tt else
  let! ig := lift (full_in_group (gc_d c) (gc_a c) (gc_b c) id) in
  if (ig : bool) then ret tt else
  let! ia := unwrap (ss_get_index (gc_a c) id) in
  let! ib := unwrap (ss_get_index (gc_b c) id) in
  on_a (ss_swap_by_index ia (fd_len (gc_d c))) >>!
  on_b (ss_swap_by_index ib (fd_len (gc_d c))) >>!
  on_d (full_set_len (fd_len (gc_d c) + 1)).

(** full_owning/mod.rs:92-109.  [length -= 1] panics on 0 (debug build);
    [in_group] makes that unreachable. *)
Definition full_remove (id : nat) : M (gctx full_data) unit :=
  let! c := get in
  let! ig := lift (full_in_group (gc_d c) (gc_a c) (gc_b c) id) in
  if negb ig then ret tt else
  let! ia := unwrap (ss_get_index (gc_a c) id) in
  let! ib := unwrap (ss_get_index (gc_b c) id) in
  assert (0 <? fd_len (gc_d c)) >>!
  let len' := fd_len (gc_d c) - 1 in
  on_d (full_set_len len') >>!
  on_a (ss_swap_by_index ia len') >>!
  on_b (ss_swap_by_index ib len').

(** full_owning/mod.rs:111-142 *)
Definition full_make : M (gctx full_data) unit :=
  on_d (full_set_len 0) >>!
  let! c := get in
  let len_a := ss_len (gc_a c) in
  let len_b := ss_len (gc_b c) in
  if len_a <? len_b then
    for_range 0 len_a (fun index_a =>
      let! c := get in
      let! id := unwrap (ss_id (gc_a c) index_a) in
      match ss_get_index (gc_b c) id with
      | Some index_b =>
          on_a (ss_swap_by_index index_a (fd_len (gc_d c))) >>!
          on_b (ss_swap_by_index index_b (fd_len (gc_d c))) >>!
          on_d (full_set_len (fd_len (gc_d c) + 1))
      | None => ret tt
      end)
  else
    for_range 0 len_b (fun index_b =>
      let! c := get in
      let! id := unwrap (ss_id (gc_b c) index_b) in
      match ss_get_index (gc_a c) id with
      | Some index_a =>
          on_a (ss_swap_by_index index_a (fd_len (gc_d c))) >>!
          on_b (ss_swap_by_index index_b (fd_len (gc_d c))) >>!
          on_d (full_set_len (fd_len (gc_d c) + 1))
      | None => ret tt
      end).

(** * Partial-owning *)

(** partial_owning/mod.rs:43-60 *)
Definition part_in_group (d : part_data) (a b : sset V) (id : nat) : outcome bool :=
  if negb (in_components a b id) then Ret false else
  match ss_get_index a id with
  | Some ia => Ret (ia <? pd_len d)
  | None => Panic
  end.

Definition part_set_len (n : nat) : M part_data unit := fun d =>
  (Ret tt, PD n (pd_a d) (pd_b d)).

(** partial_owning/mod.rs:62-80 *)
Definition part_add (id : nat) : M (gctx part_data) unit :=
  let! c := get in
  if negb (in_components (gc_a c) (gc_b c) id) then ret tt else
  let! ig := lift (part_in_group (gc_d c) (gc_a c) (gc_b c) id) in
  if (ig : bool) then ret tt else
  let! ia := unwrap (ss_get_index (gc_a c) id) in
  on_a (ss_swap_by_index ia (pd_len (gc_d c))) >>!
  on_d (part_set_len (pd_len (gc_d c) + 1)).

(** partial_owning/mod.rs:82-97 *)
Definition part_remove (id : nat) : M (gctx part_data) unit :=
  let! c := get in
  let! ig := lift (part_in_group (gc_d c) (gc_a c) (gc_b c) id) in
  if negb ig then ret tt else
  let! ia := unwrap (ss_get_index (gc_a c) id) in
  assert (0 <? pd_len (gc_d c)) >>!
  let len' := pd_len (gc_d c) - 1 in
  on_d (part_set_len len') >>!
  on_a (ss_swap_by_index ia len').

(** partial_owning/mod.rs:99-113 *)
Definition part_make : M (gctx part_data) unit :=
  on_d (part_set_len 0) >>!
  let! c := get in
  for_range 0 (ss_len (gc_a c)) (fun index =>
    let! c := get in
    let! id := unwrap (ss_id (gc_a c) index) in
    if ss_exist (gc_b c) id then
      on_a (ss_swap_by_index index (pd_len (gc_d c))) >>!
      on_d (part_set_len (pd_len (gc_d c) + 1))
    else ret tt).

(** * Non-owning *)

(** non_owning/mod.rs:49-58 *)
Definition non_in_group (d : non_data) (a b : sset V) (id : nat) : outcome bool :=
  if negb (in_components a b id) then Ret false else
  Ret (ss_exist (nd_set d) id).

Definition on_nd {A} (m : M (sset (nat * nat)) A) : M non_data A := fun d =>
  match m (nd_set d) with (o, s') => (o, ND s' (nd_a d) (nd_b d)) end.

(** non_owning/mod.rs:59-76 *)
Definition non_add (id : nat) : M (gctx non_data) unit :=
  let! c := get in
  if negb (in_components (gc_a c) (gc_b c) id) then ret tt else
  let! ig := lift (non_in_group (gc_d c) (gc_a c) (gc_b c) id) in
  if (ig : bool) then ret tt else
  let! ia := unwrap (ss_get_index (gc_a c) id) in
  let! ib := unwrap (ss_get_index (gc_b c) id) in
  on_d (on_nd (ss_add id (ia, ib))).

(** non_owning/mod.rs:78-89 *)
Definition non_remove (id : nat) : M (gctx non_data) unit :=
  let! c := get in
  let! ig := lift (non_in_group (gc_d c) (gc_a c) (gc_b c) id) in
  if negb ig then ret tt else
  let! r := on_d (on_nd (ss_remove id)) in
  let! _ := unwrap r in
  ret tt.

(** non_owning/mod.rs:91-118 *)
Definition non_make : M (gctx non_data) unit :=
  on_d (on_nd (let! s := get in put (ss_clear s))) >>!
  let! c := get in
  let len_a := ss_len (gc_a c) in
  let len_b := ss_len (gc_b c) in
  if len_a <? len_b then
    for_range 0 len_a (fun index_a =>
      let! c := get in
      let! id := unwrap (ss_id (gc_a c) index_a) in
      match ss_get_index (gc_b c) id with
      | Some index_b => on_d (on_nd (ss_add id (index_a, index_b)))
      | None => ret tt
      end)
  else
    for_range 0 len_b (fun index_b =>
      let! c := get in
      let! id := unwrap (ss_id (gc_b c) index_b) in
      match ss_get_index (gc_a c) id with
      | Some index_a => on_d (on_nd (ss_add id (index_a, index_b)))
      | None => ret tt
      end).

(** [Group::in_group], src/group/mod.rs:90-99 *)
Definition g_in_group (g : group) (a b : sset V) (id : nat) : outcome bool :=
  match g with
  | GFull d => full_in_group d a b id
  | GPart d => part_in_group d a b id
  | GNon d => non_in_group d a b id
  end.

End group.
Arguments gctx V D : clear implicits.
Arguments GC {V D}.
Arguments gc_d {V D}.
Arguments gc_a {V D}.
Arguments gc_b {V D}.

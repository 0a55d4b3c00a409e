(** Model of src/world.rs, of [Entity]/[Entities] (src/entity.rs:8-193), of
    the storage/component guards (src/component.rs) and of resources
    (src/resource.rs), for a thread that holds no guard when it makes a call.
    (Guards, handles and several threads: ModelConc.v.) *)
From stdpp Require Import prelude list gmap.
From Verif Require Import Base Api ModelSparse ModelEntity ModelGroup.

Section world.
Context {V : Type}.

(** [Box<dyn ComponentStorage>]: the sparse set and the Rust type [T] it was
    created with (src/world.rs:61-64), which the unchecked downcasts of
    src/component.rs:56-63 rely on. *)
Record storage : Type := St { st_ty : tid; st_set : sset V }.

(** [Box<dyn Resource>] with its Rust type; src/resource.rs:4-15. *)
Record resv : Type := RV { rv_ty : tid; rv_val : V }.

(** src/world.rs:13-19.  HashMaps are finite maps; the (unspecified)
    enumeration order of [components] is an argument where it is used. *)
Record world : Type := W {
  w_em : em;
  w_comps : gmap tid storage;
  w_groups : list group;
  w_res : gmap tid resv
}.

(** src/world.rs:23-30 *)
Definition w_new : world := W em_new ∅ [] ∅.

Definition set_em (e : em) (w : world) : world := W e (w_comps w) (w_groups w) (w_res w).
Definition set_comps (c : gmap tid storage) (w : world) : world := W (w_em w) c (w_groups w) (w_res w).
Definition set_groups (g : list group) (w : world) : world := W (w_em w) (w_comps w) g (w_res w).
Definition set_res (r : gmap tid resv) (w : world) : world := W (w_em w) (w_comps w) (w_groups w) r.

(** * Resources *)

(** src/world.rs:33-36 *)
Definition register_resource (r : tid) (v : V) : M world unit :=
  let! w := get in put (set_res (<[r := RV r v]> (w_res w)) w).

(** src/world.rs:39-44 and the unchecked downcast of src/resource.rs:32-40 *)
Definition resource_read (r : tid) : M world (option V) :=
  let! w := get in
  match w_res w !! r with
  | None => ret None
  | Some x => if rv_ty x =? r then ret (Some (rv_val x)) else ub
  end.

(** src/world.rs:47-52, then assigning through DerefMut
    (src/resource.rs:89-95); the result tells whether a guard was returned. *)
Definition resource_write (r : tid) (v : V) : M world bool :=
  let! w := get in
  match w_res w !! r with
  | None => ret false
  | Some x =>
      if rv_ty x =? r
      then put (set_res (<[r := RV (rv_ty x) v]> (w_res w)) w) >>! ret true
      else ub
  end.

(** * Registration *)

(** src/world.rs:69-72 *)
Definition has_registered (t : tid) (w : world) : bool :=
  bool_decide (is_Some (w_comps w !! t)).

(** src/world.rs:57-66 *)
Definition register (t : tid) : M world unit :=
  let! w := get in
  assert (negb (has_registered t w)) >>!
  put (set_comps (<[t := St t ss_new]> (w_comps w)) w).

(** * Storage access *)

(** [raw_storage_write(t).unwrap()] (src/world.rs:172-177) followed by
    [downcast_mut::<SparseSet<EntityId,T>>] (src/component.rs:60-62): UB if
    the storage was not created for [T]. *)
Definition storage_mut {A} (t : tid) (m : M (sset V) A) : M world A := fun w =>
  match w_comps w !! t with
  | None => (Panic, w)
  | Some st =>
      if st_ty st =? t then
        match m (st_set st) with
        | (o, s') => (o, set_comps (<[t := St (st_ty st) s']> (w_comps w)) w)
        end
      else (UB, w)
  end.

(** A [dyn ComponentStorage] method through the vtable (no downcast). *)
Definition dyn_mut {A} (t : tid) (m : M (sset V) A) : M world A := fun w =>
  match w_comps w !! t with
  | None => (Panic, w)
  | Some st =>
      match m (st_set st) with
      | (o, s') => (o, set_comps (<[t := St (st_ty st) s']> (w_comps w)) w)
      end
  end.

(** [components_read::<T>()], src/world.rs:209-213 with
    [StorageRead::from_lock], src/component.rs:72-82: [None] if not
    registered; the downcast is unchecked. *)
Definition components_read (t : tid) (w : world) : outcome (option (sset V)) :=
  match w_comps w !! t with
  | None => Ret None
  | Some st => if st_ty st =? t then Ret (Some (st_set st)) else UB
  end.

(** * Groups inside a world *)

(** Running a group method on group number [i]: lock the two storages as the
    match arms of src/entity.rs:53-74, 86-107 and src/world.rs:115-139,
    284-303 do.  Full: both written.  Partial: first written, second read.
    Non: both read.  Locking the same storage twice with a write lock blocks
    forever. *)
Definition run_group_at (i : nat)
    (ff : M (gctx V full_data) unit) (fp : M (gctx V part_data) unit)
    (fn : M (gctx V non_data) unit) : M world unit := fun w =>
  match w_groups w !! i with
  | None => (Panic, w)
  | Some (GFull d) =>
      match w_comps w !! fd_a d with
      | None => (Panic, w)
      | Some sa =>
          if fd_a d =? fd_b d then (Block, w) else
          match w_comps w !! fd_b d with
          | None => (Panic, w)
          | Some sb =>
              match ff (GC d (st_set sa) (st_set sb)) with
              | (o, c) =>
                  (o, set_groups (<[i := GFull (gc_d c)]> (w_groups w))
                       (set_comps (<[fd_b d := St (st_ty sb) (gc_b c)]>
                                  (<[fd_a d := St (st_ty sa) (gc_a c)]> (w_comps w))) w))
              end
          end
      end
  | Some (GPart d) =>
      match w_comps w !! pd_a d with
      | None => (Panic, w)
      | Some sa =>
          if pd_a d =? pd_b d then (Block, w) else
          match w_comps w !! pd_b d with
          | None => (Panic, w)
          | Some sb =>
              match fp (GC d (st_set sa) (st_set sb)) with
              | (o, c) =>
                  (o, set_groups (<[i := GPart (gc_d c)]> (w_groups w))
                       (set_comps (<[pd_a d := St (st_ty sa) (gc_a c)]> (w_comps w)) w))
              end
          end
      end
  | Some (GNon d) =>
      match w_comps w !! nd_a d, w_comps w !! nd_b d with
      | Some sa, Some sb =>
          match fn (GC d (st_set sa) (st_set sb)) with
          | (o, c) => (o, set_groups (<[i := GNon (gc_d c)]> (w_groups w)) w)
          end
      | _, _ => (Panic, w)
      end
  end.

(** [World::groups(type_id)], src/world.rs:333-346: positions of the groups
    one of whose two types is [t]. *)
Fixpoint groups_with (t : tid) (gs : list group) (i : nat) : list nat :=
  match gs with
  | [] => []
  | g :: gs' =>
      let '(a, b) := g_types g in
      if (a =? t) || (b =? t) then i :: groups_with t gs' (S i)
      else groups_with t gs' (S i)
  end.

(** * Entities *)

(** [World::entity(id).is_some()], src/world.rs:247-254, and
    [World::exist], src/world.rs:203-206 (same check). *)
Definition exist (id : nat) (w : world) : outcome bool := em_has (w_em w) id.

Definition on_em {A} (m : M em A) : M world A := fun w =>
  match m (w_em w) with (o, e') => (o, set_em e' w) end.

(** src/world.rs:76-82, result of [into_id] (src/entity.rs:31-33). *)
Definition create_entity : M world nat :=
  let! id := on_em em_allocate in
  let! w := get in
  let! b := lift (exist id w) in
  if (b : bool) then ret id else panic.

(** src/world.rs:87-94, result of [into_ids] (src/entity.rs:190-192). *)
Definition create_entities (n : nat) : M world (nat * nat) :=
  on_em (em_allocate_n n).

(** [Entity::attach], src/entity.rs:38-76 *)
Definition entity_attach (t : tid) (id : nat) (v : V) : M world unit :=
  let! w := get in
  assert (has_registered t w) >>!
  storage_mut t (ss_add id v) >>!
  let! w := get in
  for_each (groups_with t (w_groups w) 0) (fun i =>
    run_group_at i (full_add id) (part_add id) (non_add id)).

(** [Entity::detach], src/entity.rs:81-117 *)
Definition entity_detach (t : tid) (id : nat) : M world (option V) :=
  let! w := get in
  assert (has_registered t w) >>!
  for_each (groups_with t (w_groups w) 0) (fun i =>
    run_group_at i (full_remove id) (part_remove id) (non_remove id)) >>!
  storage_mut t (ss_remove id).

(** src/world.rs:183-187 *)
Definition attach_component (t : tid) (id : nat) (v : V) : M world unit :=
  let! w := get in
  let! b := lift (exist id w) in
  assert b >>!
  entity_attach t id v.

(** src/world.rs:196-200 *)
Definition detach_component (t : tid) (id : nat) : M world (option V) :=
  let! w := get in
  let! b := lift (exist id w) in
  assert b >>!
  entity_detach t id.

(** [Entities::attach], src/entity.rs:161-184, on a handle for the ids
    [lo..hi).  Groups are not touched (as in the code).
    [ids.end - ids.start] cannot underflow on a range made by
    create_entities. *)
Definition entities_attach (lo hi : nat) (t : tid) (vs : list V) : M world unit :=
  assert (length vs =? hi - lo) >>!
  storage_mut t (ss_add_batch (seq lo (hi - lo)) vs).

(** First loop of remove_entity, src/world.rs:101-113: positions of the
    groups the entity is in. *)
Fixpoint collect_in_group (w : world) (id : nat) (gs : list group) (i : nat)
    : outcome (list nat) :=
  match gs with
  | [] => Ret []
  | g :: gs' =>
      let '(a, b) := g_types g in
      match w_comps w !! a, w_comps w !! b with
      | Some sa, Some sb =>
          match g_in_group g (st_set sa) (st_set sb) id with
          | Ret need =>
              match collect_in_group w id gs' (S i) with
              | Ret l => Ret (if need then i :: l else l)
              | o => o
              end
          | Panic => Panic
          | UB => UB
          | Block => Block
          end
      | _, _ => Panic
      end
  end.

(** src/world.rs:142-150: the storages (enumerated in the order [ord]) that
    have the entity. *)
Definition storage_has (w : world) (id : nat) (t : tid) : bool :=
  match w_comps w !! t with
  | Some st => ss_exist (st_set st) id
  | None => false
  end.
Definition storages_with (w : world) (id : nat) (ord : list tid) : list tid :=
  filter (fun t => storage_has w id t = true) ord.

(** src/world.rs:97-159.  [ord] is the enumeration order of the HashMap of
    storages, [self.components.values()]. *)
Definition remove_entity (id : nat) (ord : list tid) : M world unit :=
  let! w := get in
  let! b := lift (exist id w) in
  assert b >>!
  let! gs := lift (collect_in_group w id (w_groups w) 0) in
  for_each gs (fun i =>
    run_group_at i
      (full_remove id >>! on_a (cs_remove id) >>! on_b (cs_remove id))
      (part_remove id >>! on_a (cs_remove id))
      (non_remove id)) >>!
  let! w := get in
  for_each (storages_with w id ord) (fun t => dyn_mut t (cs_remove id)) >>!
  on_em (em_remove id).

(** * Reading and writing components *)

(** [entity_component_read] (src/world.rs:223-232) and reading through the
    guard's Deref (src/component.rs:229-239: [get_unchecked]). *)
Definition entity_component_read (t : tid) (id : nat) : M world (option V) :=
  let! w := get in
  let! os := lift (components_read t w) in
  match os with
  | None => ret None
  | Some s =>
      if ss_exist s id then
        let! i := lift (ss_get_unchecked_loc s id) in
        match sdata s !! i with
        | Some v => ret (Some v)
        | None => ub
        end
      else ret None
  end.

(** [entity_component_write] (src/world.rs:235-244) and assigning [v]
    through DerefMut (src/component.rs:271-279); result: was there a guard. *)
Definition entity_component_write (t : tid) (id : nat) (v : V) : M world bool :=
  let! w := get in
  let! os := lift (components_read t w) in
  match os with
  | None => ret false
  | Some s =>
      if ss_exist s id then
        let! i := lift (ss_get_unchecked_loc s id) in
        storage_mut t (let! s := get in put (ss_poke i v s)) >>! ret true
      else ret false
  end.

(** [StorageWrite::get_mut(id)] then assigning [v], src/component.rs:184-187 *)
Definition storage_get_mut (t : tid) (id : nat) (v : V) : M world bool :=
  let! w := get in
  let! os := lift (components_read t w) in
  match os with
  | None => ret false
  | Some s =>
      let! r := lift (ss_get_loc s id) in
      match r with
      | Some i => storage_mut t (let! s := get in put (ss_poke i v s)) >>! ret true
      | None => ret false
      end
  end.

(** [StorageWrite::data_mut()[i] = v], src/component.rs:204-207 *)
Definition storage_data_set (t : tid) (i : nat) (v : V) : M world bool :=
  let! w := get in
  let! os := lift (components_read t w) in
  match os with
  | None => ret false
  | Some s =>
      assert (i <? length (sdata s)) >>!
      storage_mut t (let! s := get in put (ss_poke i v s)) >>! ret true
  end.

(** * Groups *)

(** src/world.rs:308-317 *)
Definition has_group (g : group) (w : world) : bool :=
  existsb (fun h => g_eqb h g) (w_groups w).

(** Ownership check of make_group, src/world.rs:264-279: is some type owned
    by an existing group also owned by [g]? *)
Definition owner_conflict (g : group) (w : world) : bool :=
  existsb (fun h => existsb (g_owned g) (g_owning h)) (w_groups w).

(** src/world.rs:260-304 *)
Definition make_group (k : gkind) (a b : tid) : M world unit :=
  let! w := get in
  let g := new_group k a b in
  assert (negb (has_group g w)) >>!
  assert (negb (owner_conflict g w)) >>!
  put (set_groups (w_groups w ++ [g]) w) >>!
  run_group_at (length (w_groups w)) full_make part_make non_make.

End world.
Arguments storage : clear implicits.
Arguments resv : clear implicits.
Arguments world : clear implicits.

(** Several threads sharing one [&World].

    Every [RwLock] of the crate is a lock: the entity manager, each group,
    each component storage, each resource (src/world.rs:13-19).  A call is a
    program that takes and releases these locks exactly where the code does,
    and in between runs the functions of ModelWorld.v / ModelQuery.v on the
    locked data.  Threads interleave at every lock operation and every piece
    of work between two lock operations.  (A piece of work touches only data
    whose lock is held: C36_protected, C36_shape in PropConc.v; so running it in one step loses
    no behaviour.)

    Simplifications: memory is sequentially consistent (the locks order all
    conflicting accesses); guards are not leaked with [mem::forget]; a lock is
    granted whenever no conflicting guard is alive (for blocking,
    PropFair.v also considers that parking_lot makes readers wait behind a
    waiting writer).  [register], [register_resource] and [make_group] need
    [&mut World], so they cannot run while the world is shared. *)
From stdpp Require Import prelude list gmap.
From Verif Require Import Base Api ModelSparse ModelEntity ModelGroup ModelWorld ModelQuery ModelStep.

(** The locks of a world, src/world.rs:13-19. *)
Inductive lock : Type :=
| LMan                (* entity_manager *)
| LGroup (i : nat)    (* groups[i] *)
| LStore (t : tid)    (* components[t] *)
| LRes (r : tid).     (* resources[r] *)
#[global] Instance lock_eq_dec : EqDecision lock.
Proof. solve_decision. Defined.

(** A guard: the lock and whether it is a write guard. *)
Notation hold := (lock * bool)%type (only parsing).

(** Can [l] not be granted in mode [x] while the guards [h] are alive? *)
Definition conflict (h : list hold) (l : lock) (x : bool) : bool :=
  existsb (fun y => bool_decide (y.1 = l) && (y.2 || x)) h.

(** Dropping one guard. *)
Fixpoint drop_hold (l : lock) (x : bool) (h : list hold) : list hold :=
  match h with
  | [] => []
  | y :: h' => if decide (y = (l, x)) then h' else y :: drop_hold l x h'
  end.

Section conc.
Context {V : Type}.
Notation world := (world V).

(** What a piece of work does to the world, for the theorems. *)
Inductive label : Type :=
| BRead                              (* reads only *)
| BNew                               (* a new id *)
| BAlloc (n : nat)                   (* [n] consecutive new ids *)
| BFree (id : nat)                   (* an id goes back to the manager *)
| BPut (t id : nat) (v : V)          (* attach *)
| BBatch (t lo hi : nat) (vs : list V) (* batch attach *)
| BTake (t id : nat)                 (* detach *)
| BDrop (t id : nat)                 (* remove_entity's per-storage removal *)
| BAdd (i id : nat)                  (* entity enters group [i] *)
| BLeave (i id : nat)                (* entity leaves group [i] *)
| BKill (i id : nat)                 (* remove_entity's work for group [i] *)
| BWrite                             (* values are overwritten *)
| BSet (o : op V).                   (* values are overwritten, by what [o] alone does *)

(** Programs.  [PAct _ f k]: run [f] on the world, go on with its result; if
    it panics the program panics. *)
Inductive prog (A : Type) : Type :=
| PRet (a : A)
| PPanic
| PUB
| PHang
| PAcq (l : lock) (x : bool) (k : prog A)
| PRel (l : lock) (x : bool) (k : prog A)
| PAct {B : Type} (lab : label) (f : M world B) (k : B -> prog A).
Arguments PRet {A}.
Arguments PPanic {A}.
Arguments PUB {A}.
Arguments PHang {A}.
Arguments PAcq {A}.
Arguments PRel {A}.
Arguments PAct {A B}.

Fixpoint pbind {A B} (p : prog A) (k : A -> prog B) : prog B :=
  match p with
  | PRet a => k a
  | PPanic => PPanic
  | PUB => PUB
  | PHang => PHang
  | PAcq l x p' => PAcq l x (pbind p' k)
  | PRel l x p' => PRel l x (pbind p' k)
  | PAct lab f kk => PAct lab f (fun b => pbind (kk b) k)
  end.
Notation "'do!' x '<-' m 'in' k" := (pbind m (fun x => k))
  (at level 200, x pattern, m at level 100, k at level 200).
Notation "m ;;; k" := (pbind m (fun _ => k)) (at level 95, right associativity).

Definition acq (l : lock) (x : bool) : prog unit := PAcq l x (PRet tt).
Definition rel (l : lock) (x : bool) : prog unit := PRel l x (PRet tt).
Definition act {B} (lab : label) (m : M world B) : prog B := PAct lab m PRet.
Definition look {B} (f : world -> B) : prog B := act BRead (fun w => (Ret (f w), w)).
Definition ask {B} (f : world -> outcome B) : prog B := act BRead (fun w => (f w, w)).
Definition passert (b : bool) : prog unit := if b then PRet tt else PPanic.
Definition punwrap {A} (o : option A) : prog A :=
  match o with Some a => PRet a | None => PPanic end.
Fixpoint pfor {A} (l : list A) (f : A -> prog unit) : prog unit :=
  match l with
  | [] => PRet tt
  | x :: l' => f x ;;; pfor l' f
  end.
(** Dropping guards. *)
Fixpoint rels {A} (h : list hold) (k : prog A) : prog A :=
  match h with
  | [] => k
  | (l, x) :: h' => PRel l x (rels h' k)
  end.

(** Running a program whose panics are caught: unwinding drops the guards the
    program has taken and not yet dropped ([mine]).  [k] gets the outcome and
    the guards that are still alive. *)
Fixpoint catch {A B} (mine : list hold) (p : prog A) (k : outcome A -> list hold -> prog B) : prog B :=
  match p with
  | PRet a => k (Ret a) mine
  | PPanic => rels mine (k Panic [])
  | PUB => PUB
  | PHang => PHang
  | PAcq l x p' => PAcq l x (catch ((l, x) :: mine) p' k)
  | PRel l x p' => PRel l x (catch (drop_hold l x mine) p' k)
  | PAct lab f kk =>
      PAct lab (fun w => match f w with (o, w') => (Ret o, w') end) (fun o =>
        match o with
        | Ret b => catch mine (kk b) k
        | Panic => rels mine (k Panic [])
        | UB => PUB
        | Block => PHang
        end)
  end.

(** * The calls, lock by lock *)

(** [self.entity_manager.read()] ... [has(id)], src/world.rs:203-206. *)
Definition p_exist (id : nat) : prog bool :=
  acq LMan false ;;;
  do! b <- ask (exist id) in
  rel LMan false ;;;
  PRet b.

(** [World::entity], src/world.rs:247-254: the guard goes into the handle. *)
Definition p_entity (id : nat) : prog bool :=
  acq LMan false ;;;
  do! b <- ask (exist id) in
  if (b : bool) then PRet true
  else rel LMan false ;;; PRet false.

(** [create_entity], src/world.rs:76-82: the manager is unlocked between
    allocating the id and taking the handle. *)
Definition p_new_entity : prog nat :=
  acq LMan true ;;;
  do! id <- act BNew (on_em em_allocate) in
  rel LMan true ;;;
  do! b <- p_entity id in
  passert b ;;;
  PRet id.

(** [create_entities], src/world.rs:87-94 *)
Definition p_new_entities (n : nat) : prog (nat * nat) :=
  acq LMan true ;;;
  do! r <- act (BAlloc n) (on_em (em_allocate_n n)) in
  rel LMan true ;;;
  acq LMan false ;;;
  PRet r.

(** [raw_storage_read/write(t).unwrap()], src/world.rs:163-177.  Looking up
    the lock in the map needs no lock. *)
Definition p_storage (t : tid) (x : bool) : prog unit :=
  do! b <- look (has_registered t) in
  passert b ;;;
  acq (LStore t) x.

(** What a thread sees of a group without changing it: kind and types. *)
Definition group_head (i : nat) (w : world) : option (gkind * tid * tid) :=
  match w_groups w !! i with
  | None => None
  | Some (GFull d) => Some (KFull, fd_a d, fd_b d)
  | Some (GPart d) => Some (KPart, pd_a d, pd_b d)
  | Some (GNon d) => Some (KNon, nd_a d, nd_b d)
  end.

(** The match arms locking the two storages of group [i] and running a group
    method: src/entity.rs:53-74, 86-107, src/world.rs:115-139.  The guards on
    the storages are dropped at the end of the arm, the second first. *)
Definition p_group_at (i : nat) (lab : label)
    (ff : M (gctx V full_data) unit) (fp : M (gctx V part_data) unit)
    (fn : M (gctx V non_data) unit) : prog unit :=
  do! h <- look (group_head i) in
  do! h <- punwrap h in
  let '(k, a, b) := h in
  let xa := match k with KFull | KPart => true | KNon => false end in
  let xb := match k with KFull => true | _ => false end in
  p_storage a xa ;;;
  p_storage b xb ;;;
  act lab (run_group_at i ff fp fn) ;;;
  rel (LStore b) xb ;;;
  rel (LStore a) xa.

(** [World::groups(t)], src/world.rs:333-346, from group [i] on ([n] groups
    left): each group is read-locked, looked at, unlocked, and write-locked
    if it has the type. *)
Fixpoint p_groups (t : tid) (i n : nat) : prog (list nat) :=
  match n with
  | 0 => PRet []
  | S n' =>
      acq (LGroup i) false ;;;
      do! h <- look (group_head i) in
      rel (LGroup i) false ;;;
      let need := match h with Some (_, a, b) => (a =? t) || (b =? t) | None => false end in
      if need then
        acq (LGroup i) true ;;;
        do! l <- p_groups t (S i) n' in
        PRet (i :: l)
      else p_groups t (S i) n'
  end.
Definition n_groups (w : world) : nat := length (w_groups w).

(** [for mut group in ..]: the guard of a group is dropped after its turn. *)
Definition p_each_group (gs : list nat) (lab : nat -> label)
    (ff : M (gctx V full_data) unit) (fp : M (gctx V part_data) unit)
    (fn : M (gctx V non_data) unit) : prog unit :=
  pfor gs (fun i => p_group_at i (lab i) ff fp fn ;;; rel (LGroup i) true).

(** [Entity::attach], src/entity.rs:38-76; the handle holds the manager. *)
Definition p_handle_attach (t : tid) (id : nat) (v : V) : prog unit :=
  do! b <- look (has_registered t) in
  passert b ;;;
  acq (LStore t) true ;;;
  act (BPut t id v) (storage_mut t (ss_add id v)) ;;;
  rel (LStore t) true ;;;
  do! n <- look n_groups in
  do! gs <- p_groups t 0 n in
  p_each_group gs (fun i => BAdd i id) (full_add id) (part_add id) (non_add id).

(** [Entity::detach], src/entity.rs:81-117: the groups are unlocked before
    the component is taken out of its storage. *)
Definition p_handle_detach (t : tid) (id : nat) : prog (option V) :=
  do! b <- look (has_registered t) in
  passert b ;;;
  do! n <- look n_groups in
  do! gs <- p_groups t 0 n in
  p_each_group gs (fun i => BLeave i id) (full_remove id) (part_remove id) (non_remove id) ;;;
  acq (LStore t) true ;;;
  do! r <- act (BTake t id) (storage_mut t (ss_remove id)) in
  rel (LStore t) true ;;;
  PRet r.

(** [Entities::attach], src/entity.rs:161-184 *)
Definition p_batch (lo hi : nat) (t : tid) (vs : list V) : prog unit :=
  passert (length vs =? hi - lo) ;;;
  p_storage t true ;;;
  act (BBatch t lo hi vs) (storage_mut t (ss_add_batch (seq lo (hi - lo)) vs)) ;;;
  rel (LStore t) true.

(** First loop of remove_entity, src/world.rs:101-113, from group [i] on. *)
Definition in_group_at (i : nat) (id : nat) (w : world) : outcome bool :=
  match w_groups w !! i with
  | None => Panic
  | Some g =>
      let '(a, b) := g_types g in
      match w_comps w !! a, w_comps w !! b with
      | Some sa, Some sb => g_in_group g (st_set sa) (st_set sb) id
      | _, _ => Panic
      end
  end.
Fixpoint p_find_in (id i n : nat) : prog (list nat) :=
  match n with
  | 0 => PRet []
  | S n' =>
      acq (LGroup i) false ;;;
      do! h <- look (group_head i) in
      do! h <- punwrap h in
      let '(_, a, b) := h in
      p_storage a false ;;;
      p_storage b false ;;;
      do! need <- ask (in_group_at i id) in
      rel (LStore b) false ;;;
      rel (LStore a) false ;;;
      rel (LGroup i) false ;;;
      if (need : bool) then
        acq (LGroup i) true ;;;
        do! l <- p_find_in id (S i) n' in
        PRet (i :: l)
      else p_find_in id (S i) n'
  end.

(** src/world.rs:142-150: read-lock each storage, look, unlock, write-lock it
    if it has the entity. *)
Fixpoint p_find_storages (id : nat) (ord : list tid) : prog (list tid) :=
  match ord with
  | [] => PRet []
  | t :: ord' =>
      acq (LStore t) false ;;;
      do! need <- look (fun w => storage_has w id t) in
      rel (LStore t) false ;;;
      if (need : bool) then
        acq (LStore t) true ;;;
        do! l <- p_find_storages id ord' in
        PRet (t :: l)
      else p_find_storages id ord'
  end.

(** [remove_entity], src/world.rs:97-159: existence is checked at the start
    only; the manager is locked again at the very end. *)
Definition p_remove (id : nat) (ord : list tid) : prog unit :=
  do! b <- p_exist id in
  passert b ;;;
  do! n <- look n_groups in
  do! gs <- p_find_in id 0 n in
  p_each_group gs (fun i => BKill i id)
      (full_remove id >>! on_a (cs_remove id) >>! on_b (cs_remove id))
      (part_remove id >>! on_a (cs_remove id))
      (non_remove id) ;;;
  do! ts <- p_find_storages id ord in
  pfor ts (fun t => act (BDrop t id) (dyn_mut t (cs_remove id)) ;;; rel (LStore t) true) ;;;
  acq LMan true ;;;
  act (BFree id) (on_em (em_remove id)) ;;;
  rel LMan true.

(** [has_group] and [group], src/world.rs:308-331, from group [i] on: the
    position of the group, looking at each under its own read lock. *)
Fixpoint p_find_group (k : gkind) (a b : tid) (i n : nat) : prog (option nat) :=
  match n with
  | 0 => PRet None
  | S n' =>
      acq (LGroup i) false ;;;
      do! h <- look (group_head i) in
      rel (LGroup i) false ;;;
      if bool_decide (h = Some (k, a, b)) then PRet (Some i) else p_find_group k a b (S i) n'
  end.

(** Opening a query: the iterator and the guards in it.  Same code as
    [query_open] in ModelQuery.v; see there for the lines. *)
Definition p_downcast (t : tid) : prog unit :=
  ask (fun w => (downcast w t []).1).
Definition p_ref (m : bool) (t : tid) : prog (qiter V * list hold) :=
  do! b <- look (has_registered t) in
  passert b ;;;
  acq (LStore t) m ;;;
  p_downcast t ;;;
  PRet (iter_ref m t, [(LStore t, m)]).
Definition p_open_group (k : gkind) (ma mb : bool) (a b : tid) : prog (qiter V * list hold) :=
  do! r <- look (fun w => has_registered a w && has_registered b w) in
  passert r ;;;
  acq (LStore a) ma ;;;
  acq (LStore b) mb ;;;
  p_downcast a ;;;
  p_downcast b ;;;
  do! n <- look n_groups in
  do! found <- p_find_group k a b 0 n in
  passert (bool_decide (is_Some found)) ;;;
  do! found <- p_find_group k a b 0 n in
  do! gi <- punwrap found in
  acq (LGroup gi) false ;;;
  let hs := [(LGroup gi, false); (LStore b, mb); (LStore a, ma)] in
  match k with
  | KFull =>
      do! len <- ask (fun w => match w_groups w !! gi with Some g => Ret (g_len g) | None => Panic end) in
      PRet (iter_full ma mb a b len, hs)
  | KPart =>
      do! len <- ask (fun w => match w_groups w !! gi with Some g => Ret (g_len g) | None => Panic end) in
      PRet (iter_part ma mb a b len, hs)
  | KNon => PRet (iter_non ma mb a b gi, hs)
  end.
Fixpoint p_open (q : query) : prog (qiter V * list hold) :=
  match q with
  | QRef m t => p_ref m t
  | Q2 a b =>
      do! x <- p_open a in do! y <- p_open b in
      PRet (with2 x.1 y.1, y.2 ++ x.2)
  | Q3 a b c =>
      do! x <- p_open a in do! y <- p_open b in do! z <- p_open c in
      PRet (with3 x.1 y.1 z.1, z.2 ++ y.2 ++ x.2)
  | Q4 a b c d =>
      do! x <- p_open a in do! y <- p_open b in do! z <- p_open c in do! u <- p_open d in
      PRet (with4 x.1 y.1 z.1 u.1, u.2 ++ z.2 ++ y.2 ++ x.2)
  | Q5 a b c d e =>
      do! x <- p_open a in do! y <- p_open b in do! z <- p_open c in do! u <- p_open d in
      do! v <- p_open e in
      PRet (with5 x.1 y.1 z.1 u.1 v.1, v.2 ++ u.2 ++ z.2 ++ y.2 ++ x.2)
  | QWithoutL a b =>
      do! x <- p_open a in do! y <- p_open b in
      PRet (without_left x.1 y.1, y.2 ++ x.2)
  | QWithoutR a b =>
      do! x <- p_open a in do! y <- p_open b in
      PRet (without_right x.1 y.1, y.2 ++ x.2)
  | QGroup k ma mb a b => p_open_group k ma mb a b
  end.

(** A call on the storage of [t] or on a resource made through a guard that
    lives for this call: nothing is locked if there is no such storage. *)
Definition via_guard (l : lock) (x : bool) (lab : label) (there : world -> bool) (o : op V) : prog (out V) :=
  do! b <- look there in
  if (b : bool) then
    acq l x ;;;
    do! r <- act lab (step o) in
    rel l x ;;;
    PRet r
  else act BRead (step o).
Definition has_res (r : tid) (w : world) : bool := bool_decide (is_Some (w_res w !! r)).

(** An API call made by a thread.  Guards and handles it creates are dropped
    before it returns, as in [step]. *)
Definition p_call (o : op V) : prog (out V) :=
  match o with
  | Register _ | MakeGroup _ _ _ | RegisterRes _ _ => PPanic (* need &mut World: not callable *)
  | BatchAttach _ _ _ _ => PPanic (* not callable without a handle: [HBatch] *)
  | HasRegistered t => act BRead (step (HasRegistered t))
  | CreateEntity =>
      do! id <- p_new_entity in rel LMan false ;;; PRet (OId id)
  | CreateEntities n =>
      do! r <- p_new_entities n in rel LMan false ;;; PRet (ORange r.1 r.2)
  | RemoveEntity id ord => p_remove id ord ;;; PRet OUnit
  | Exist id => do! b <- p_exist id in PRet (OBool b)
  | Attach t id v =>
      (* src/world.rs:183-187 *)
      do! b <- p_entity id in
      passert b ;;;
      p_handle_attach t id v ;;;
      rel LMan false ;;;
      PRet OUnit
  | Detach t id =>
      (* src/world.rs:196-200 *)
      do! b <- p_entity id in
      passert b ;;;
      do! r <- p_handle_detach t id in
      rel LMan false ;;;
      PRet (OVal r)
  | ReadComp t _ | StoreCount t | StoreIsEmpty t | StoreExist t _ | StoreGet t _ | StoreData t =>
      via_guard (LStore t) false BRead (has_registered t) o
  | WriteComp t _ _ | StoreGetMut t _ _ | StoreDataSet t _ _ =>
      via_guard (LStore t) true (BSet o) (has_registered t) o
  | Query q =>
      do! x <- p_open q in
      do! l <- ask (fun w => collect (S (qi_fuel x.1 w (qi_init x.1))) w x.1 (qi_init x.1)) in
      rels x.2 (PRet (OItems l))
  | QueryMut q f =>
      do! x <- p_open q in
      do! l <- act BWrite (fun w => drive (S (qi_fuel x.1 w (qi_init x.1))) x.1 f (qi_init x.1) w) in
      rels x.2 (PRet (OItems l))
  | ReadRes r => via_guard (LRes r) false BRead (has_res r) o
  | WriteRes r _ => via_guard (LRes r) true (BSet o) (has_res r) o
  end.

(** * Clients *)

(** The objects a thread can keep: [Entity], [Entities], storage and
    component guards, resource guards, query iterators. *)
Inductive obj : Type :=
| JEntity (id : nat)
| JEntities (lo hi : nat)
| JStore (t : tid) (x : bool)
| JRes (r : tid) (x : bool)
| JIter (J : qiter V) (st : qi_st J) (hs : list hold).

Definition obj_holds (o : obj) : list hold :=
  match o with
  | JEntity _ | JEntities _ _ => [(LMan, false)]
  | JStore t x => [(LStore t, x)]
  | JRes r x => [(LRes r, x)]
  | JIter _ _ hs => hs
  end.

(** The program of a thread: a tree of calls, each continued according to
    what it answered (panics are caught).  Kept objects are referred to by
    position in the list of kept objects, the newest first. *)
Inductive client : Type :=
| Done
| Call (o : op V) (k : outcome (out V) -> client)
| GetEntity (id : nat) (k : outcome bool -> client)          (* world.entity(id) *)
| NewEntity (k : outcome nat -> client)                      (* world.create_entity() *)
| NewEntities (n : nat) (k : outcome (nat * nat) -> client)  (* world.create_entities(n) *)
| HAttach (j : nat) (t : tid) (v : V) (k : outcome unit -> client)      (* entity.attach(v) *)
| HDetach (j : nat) (t : tid) (k : outcome (option V) -> client)        (* entity.detach::<T>() *)
| HBatch (j : nat) (t : tid) (vs : list V) (k : outcome unit -> client) (* entities.attach(vs) *)
| GetStore (t : tid) (x : bool) (k : bool -> client)         (* components_read/_write *)
| GetComp (t : tid) (id : nat) (x : bool) (k : bool -> client) (* entity_component_read/_write *)
| GetRes (r : tid) (x : bool) (k : bool -> client)           (* resource_read/_write *)
| Use (j : nat) (o : op V) (k : outcome (out V) -> client)   (* a call through guard [j] *)
| Open (q : query) (k : outcome unit -> client)              (* let it = world.query::<Q>() *)
| ICall (j : nat) (c : qcall V) (k : outcome (qans V) -> client) (* it.next() ... *)
| DropObj (j : nat) (k : client).                            (* drop *)

(** Calls that can be made through a guard. *)
Definition through (ob : obj) (o : op V) : bool :=
  match ob, o with
  | JStore t _, (ReadComp t' _ | StoreCount t' | StoreIsEmpty t' | StoreExist t' _ | StoreGet t' _ | StoreData t') => t =? t'
  | JStore t x, (WriteComp t' _ _ | StoreGetMut t' _ _ | StoreDataSet t' _ _) => x && (t =? t')
  | JRes r _, ReadRes r' => r =? r'
  | JRes r x, WriteRes r' _ => x && (r =? r')
  | _, _ => false
  end.
Definition use_label (o : op V) : label :=
  match o with WriteComp _ _ _ | StoreGetMut _ _ _ | StoreDataSet _ _ _ | WriteRes _ _ => BSet o | _ => BRead end.

(** Writing through items of an iterator: only components whose storage the
    iterator locks exclusively. *)
Definition own_writes (hs : list hold) (c : qcall V) : qcall V :=
  match c with
  | CWrite g => CWrite (fun t id v => if decide ((LStore t, true) ∈ hs) then g t id v else v)
  | c => c
  end.

Definition all_holds (e : list obj) : list hold := concat (map obj_holds e).

(** The program of a thread that keeps the objects [e].  A step Rust would
    reject (using an object of the wrong kind or one that is gone) ends it.
    A panic inside [Entity::attach] / [Entities::attach], which take [self],
    drops the handle; the other calls borrow it. *)
Fixpoint compile (e : list obj) (c : client) : prog unit :=
  match c with
  | Done => rels (all_holds e) (PRet tt)
  | Call o k => catch [] (p_call o) (fun r _ => compile e (k r))
  | GetEntity id k =>
      catch [] (p_entity id) (fun r _ =>
        compile (match r with Ret true => JEntity id :: e | _ => e end) (k r))
  | NewEntity k =>
      catch [] p_new_entity (fun r _ =>
        compile (match r with Ret id => JEntity id :: e | _ => e end) (k r))
  | NewEntities n k =>
      catch [] (p_new_entities n) (fun r _ =>
        compile (match r with Ret (lo, hi) => JEntities lo hi :: e | _ => e end) (k r))
  | HAttach j t v k =>
      match e !! j with
      | Some (JEntity id) =>
          catch [] (p_handle_attach t id v) (fun r _ =>
            match r with
            | Ret _ => compile e (k r)
            | _ => PRel LMan false (compile (delete j e) (k r))
            end)
      | _ => rels (all_holds e) (PRet tt)
      end
  | HDetach j t k =>
      match e !! j with
      | Some (JEntity id) => catch [] (p_handle_detach t id) (fun r _ => compile e (k r))
      | _ => rels (all_holds e) (PRet tt)
      end
  | HBatch j t vs k =>
      match e !! j with
      | Some (JEntities lo hi) =>
          catch [] (p_batch lo hi t vs) (fun r _ =>
            match r with
            | Ret _ => compile e (k r)
            | _ => PRel LMan false (compile (delete j e) (k r))
            end)
      | _ => rels (all_holds e) (PRet tt)
      end
  | GetStore t x k =>
      PAct BRead (fun w => (Ret (has_registered t w), w)) (fun b : bool =>
        if b then PAcq (LStore t) x (compile (JStore t x :: e) (k true)) else compile e (k false))
  | GetComp t id x k =>
      PAct BRead (fun w => (Ret (has_registered t w), w)) (fun b : bool =>
        if b then
          PAcq (LStore t) x (PAct BRead (fun w => (Ret (storage_has w id t), w)) (fun b : bool =>
            if b then compile (JStore t x :: e) (k true)
            else PRel (LStore t) x (compile e (k false))))
        else compile e (k false))
  | GetRes r x k =>
      PAct BRead (fun w => (Ret (has_res r w), w)) (fun b : bool =>
        if b then PAcq (LRes r) x (compile (JRes r x :: e) (k true)) else compile e (k false))
  | Use j o k =>
      match e !! j with
      | Some ob =>
          if through ob o then
            catch [] (act (use_label o) (step o)) (fun r _ => compile e (k r))
          else rels (all_holds e) (PRet tt)
      | None => rels (all_holds e) (PRet tt)
      end
  | Open q k =>
      catch [] (p_open q) (fun r _ =>
        match r with
        | Ret x => compile (JIter x.1 (qi_init x.1) x.2 :: e) (k (Ret tt))
        | Panic => compile e (k Panic)
        | UB => PUB
        | Block => PHang
        end)
  | ICall j c k =>
      match e !! j with
      | Some (JIter J st hs) =>
          PAct (match c with CWrite _ => BWrite | _ => BRead end)
            (fun w => match run_call J (own_writes hs c) (w, st) with
                      | (o, (w', st')) => (Ret (o, st'), w')
                      end)
            (fun r =>
               match r.1 with
               | UB => PUB
               | Block => PHang
               | o => compile (<[j := JIter J r.2 hs]> e) (k o)
               end)
      | _ => rels (all_holds e) (PRet tt)
      end
  | DropObj j k =>
      match e !! j with
      | Some ob => rels (obj_holds ob) (compile (delete j e) k)
      | None => rels (all_holds e) (PRet tt)
      end
  end.

(** * Threads and schedules *)

Record thread : Type := Th { th_holds : list hold; th_prog : prog unit }.
Record conf : Type := Cf { cf_world : world; cf_threads : list thread }.

(** One step of a thread while the other threads' guards are [others]; [None]:
    it has to wait, or is finished. *)
Definition tstep (others : list hold) (th : thread) (w : world) : option (thread * world) :=
  match th_prog th with
  | PAcq l x k =>
      if conflict (th_holds th ++ others) l x then None
      else Some (Th ((l, x) :: th_holds th) k, w)
  | PRel l x k => Some (Th (drop_hold l x (th_holds th)) k, w)
  | PAct _ f k =>
      match f w with
      | (Ret b, w') => Some (Th (th_holds th) (k b), w')
      | (Panic, w') => Some (Th (th_holds th) PPanic, w')
      | (UB, w') => Some (Th (th_holds th) PUB, w')
      | (Block, w') => Some (Th (th_holds th) PHang, w')
      end
  | _ => None
  end.

(** The guards alive in all threads but number [i]. *)
Definition holds_of_others (i : nat) (ths : list thread) : list hold :=
  concat (map th_holds (delete i ths)).

Definition cstep (i : nat) (c : conf) : option conf :=
  match cf_threads c !! i with
  | None => None
  | Some th =>
      match tstep (holds_of_others i (cf_threads c)) th (cf_world c) with
      | None => None
      | Some (th', w') => Some (Cf w' (<[i := th']> (cf_threads c)))
      end
  end.

(** A schedule says which thread moves next.  [None]: it is not one (a thread
    that has to wait was scheduled). *)
Fixpoint run (sched : list nat) (c : conf) : option conf :=
  match sched with
  | [] => Some c
  | i :: sched' => match cstep i c with Some c' => run sched' c' | None => None end
  end.

(** Threads with the programs [cs] start on a world made by the calls [ops]. *)
Definition start (w : world) (cs : list client) : conf :=
  Cf w (map (fun c => Th [] (compile [] c)) cs).

(** A thread running alone: what a program does when nobody else moves and
    the thread holds [h]: outcome, world, guards.  A lock the thread holds
    itself in a conflicting mode is never granted. *)
Fixpoint alone {A} (p : prog A) (h : list hold) (w : world) : outcome A * world * list hold :=
  match p with
  | PRet a => (Ret a, w, h)
  | PPanic => (Panic, w, h)
  | PUB => (UB, w, h)
  | PHang => (Block, w, h)
  | PAcq l x k => if conflict h l x then (Block, w, h) else alone k ((l, x) :: h) w
  | PRel l x k => alone k (drop_hold l x h) w
  | PAct _ f k =>
      match f w with
      | (Ret b, w') => alone (k b) h w'
      | (Panic, w') => (Panic, w', h)
      | (UB, w') => (UB, w', h)
      | (Block, w') => (Block, w', h)
      end
  end.

End conc.
Arguments label : clear implicits.
Arguments prog : clear implicits.
Arguments client : clear implicits.
Arguments obj : clear implicits.
Arguments thread : clear implicits.
Arguments conf : clear implicits.
Arguments PRet {V A}.
Arguments PPanic {V A}.
Arguments PUB {V A}.
Arguments PHang {V A}.
Arguments PAcq {V A}.
Arguments PRel {V A}.
Arguments PAct {V A B}.
Notation "'do!' x '<-' m 'in' k" := (pbind m (fun x => k))
  (at level 200, x pattern, m at level 100, k at level 200).
Notation "m ;;; k" := (pbind m (fun _ => k)) (at level 95, right associativity).

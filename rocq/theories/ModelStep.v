(** The API calls as one step function, and histories of calls. *)
From stdpp Require Import prelude list gmap.
From Verif Require Import Base Api ModelSparse ModelEntity ModelGroup ModelWorld ModelQuery.

Section step.
Context {V : Type}.
Notation world := (world V).

(** Reading through [components_read::<T>()] (src/world.rs:209-213) and a
    method [f] of the guard (src/component.rs:84-124). *)
Definition via_storage {A} (t : tid) (f : sset V -> outcome A) : M world (option A) :=
  let! w := get in
  let! os := lift (components_read t w) in
  match os with
  | None => ret None
  | Some s => let! a := lift (f s) in ret (Some a)
  end.

Definition fmapM {S A B} (f : A -> B) (m : M S A) : M S B := let! a := m in ret (f a).

Definition step (o : op V) : M world (out V) :=
  match o with
  | Register t => fmapM (fun _ => OUnit) (register t)
  | HasRegistered t => let! w := get in ret (OBool (has_registered t w))
  | CreateEntity => fmapM OId create_entity
  | CreateEntities n => fmapM (fun r => ORange r.1 r.2) (create_entities n)
  | RemoveEntity id ord => fmapM (fun _ => OUnit) (remove_entity id ord)
  | Exist id => let! w := get in fmapM OBool (lift (exist id w))
  | Attach t id v => fmapM (fun _ => OUnit) (attach_component t id v)
  | Detach t id => fmapM OVal (detach_component t id)
  | BatchAttach lo hi t vs => fmapM (fun _ => OUnit) (entities_attach lo hi t vs)
  | ReadComp t id => fmapM OVal (entity_component_read t id)
  | WriteComp t id v => fmapM OBool (entity_component_write t id v)
  | StoreCount t => fmapM ONatOpt (via_storage t (fun s => Ret (ss_len s)))
  | StoreIsEmpty t => fmapM OBoolOpt (via_storage t (fun s => Ret (ss_is_empty s)))
  | StoreExist t id => fmapM OBoolOpt (via_storage t (fun s => Ret (ss_exist s id)))
  | StoreGet t id => fmapM OValOpt (via_storage t (fun s => ss_get s id))
  | StoreData t => fmapM OData (via_storage t (fun s => Ret (sdata s)))
  | StoreGetMut t id v => fmapM OBool (storage_get_mut t id v)
  | StoreDataSet t i v => fmapM OBool (storage_data_set t i v)
  | MakeGroup k a b => fmapM (fun _ => OUnit) (make_group k a b)
  | Query q => let! w := get in fmapM OItems (lift (run_query w q))
  | QueryMut q f => fmapM OItems (run_query_mut q f)
  | RegisterRes r v => fmapM (fun _ => OUnit) (register_resource r v)
  | ReadRes r => fmapM OVal (resource_read r)
  | WriteRes r v => fmapM OBool (resource_write r v)
  end.

(** A history: the calls one after another; a panic is caught and the next
    call runs on the state it left.  (Calls that block or are UB do not occur
    in the histories the theorems speak of, or are what they exclude.) *)
Fixpoint exec (ops : list (op V)) (w : world) : world :=
  match ops with
  | [] => w
  | o :: ops' => exec ops' (step o w).2
  end.
(** The calls of a history, each with what it answered. *)
Fixpoint trace (ops : list (op V)) (w : world) : list (op V * outcome (out V)) :=
  match ops with
  | [] => []
  | o :: ops' => (o, (step o w).1) :: trace ops' (step o w).2
  end.

(** The world after the calls [ops] made on a new world; what a further call
    [o] answers; what the caller has seen. *)
Definition after (ops : list (op V)) : world := exec ops w_new.
Definition answer (ops : list (op V)) (o : op V) : outcome (out V) := (step o (after ops)).1.
(** What a further query answers to the iterator calls [cs]. *)
Definition use (ops : list (op V)) (q : query) (cs : list (qcall V)) : outcome (list (qans V)) :=
  use_query (after ops) q cs.
Definition seen (ops : list (op V)) : list (op V * outcome (out V)) := trace ops w_new.

End step.

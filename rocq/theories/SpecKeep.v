(** Which objects (handles, guards, iterators) a thread keeps at each moment:
    the vocabulary of PropKeep.v. *)
From stdpp Require Import prelude list gmap.
From Verif Require Import Base Api ModelSparse ModelEntity ModelGroup ModelWorld ModelQuery ModelStep ModelConc.

Section keep.
Context {V : Type}.
Local Notation hold := (lock * bool)%type.
Implicit Types (w : world V) (e : list (obj V)) (cl : client V) (hs mine : list hold).

(** Where a thread is in its program.
    [InCall e mine p k]: inside a call, keeping the objects [e]; the call has
    the guards [mine] and [p] is left of it; [k] says, from its outcome, which
    guards are then dropped, which objects are then kept and what comes next.
    [Dropping hs e cl]: dropping the guards [hs], then keeping [e] and going on
    with [cl].  [At e cl]: about to look whether the type or resource asked for
    is there, or to use an iterator.  [Taking t id x e k]: waiting for the
    storage; [Looking]: looking for the component in it; [Getting l x ob e cl]:
    waiting for the lock of the guard [ob].  [Lost]: undefined behaviour or
    hanging. *)
Inductive place : Type :=
| InCall {A} (e : list (obj V)) (mine : list hold) (p : prog V A) (k : outcome A -> list hold * list (obj V) * client V)
| Dropping (hs : list hold) (e : list (obj V)) (cl : client V)
| At (e : list (obj V)) (cl : client V)
| Getting (l : lock) (x : bool) (ob : obj V) (e : list (obj V)) (cl : client V)
| Taking (t id : nat) (x : bool) (e : list (obj V)) (k : bool -> client V)
| Looking (t id : nat) (x : bool) (e : list (obj V)) (k : bool -> client V)
| Lost (e : list (obj V)).

(** the objects kept there *)
Definition keeping (pl : place) : list (obj V) :=
  match pl with
  | InCall e _ _ _ | Dropping _ e _ | At e _ | Getting _ _ _ e _ | Taking _ _ _ e _ | Looking _ _ _ e _ | Lost e => e
  end.

(** the guards it has besides those of its objects: the call's own, and those
    it is about to drop *)
Definition extra (pl : place) : list hold :=
  match pl with
  | InCall _ mine _ _ => mine
  | Dropping hs _ _ => hs
  | Looking t _ x _ _ => [(LStore t, x)]
  | _ => []
  end.
Definition lost (pl : place) : bool := match pl with Lost _ => true | _ => false end.

(** A thread keeping [e] begins with [cl].  (Same cases as [compile].) *)
Fixpoint begin e cl {struct cl} : place :=
  let stop := Dropping (all_holds e) [] Done in
  match cl with
  | Done => stop
  | Call o k =>
      match p_call o with PPanic => begin e (k Panic) | p => InCall e [] p (fun r => ([], e, k r)) end
  | GetEntity id k =>
      InCall e [] (p_entity id) (fun r => ([], match r with Ret true => JEntity id :: e | _ => e end, k r))
  | NewEntity k =>
      InCall e [] p_new_entity (fun r => ([], match r with Ret id => JEntity id :: e | _ => e end, k r))
  | NewEntities n k =>
      InCall e [] (p_new_entities n) (fun r => ([], match r with Ret (lo, hi) => JEntities lo hi :: e | _ => e end, k r))
  | HAttach j t v k =>
      match e !! j with
      | Some (JEntity id) =>
          InCall e [] (p_handle_attach t id v) (fun r =>
            match r with Ret _ => ([], e, k r) | _ => ([(LMan, false)], delete j e, k r) end)
      | _ => stop
      end
  | HDetach j t k =>
      match e !! j with
      | Some (JEntity id) => InCall e [] (p_handle_detach t id) (fun r => ([], e, k r))
      | _ => stop
      end
  | HBatch j t vs k =>
      match e !! j with
      | Some (JEntities lo hi) =>
          match p_batch lo hi t vs with
          | PPanic => Dropping [(LMan, false)] (delete j e) (k Panic)
          | p => InCall e [] p (fun r =>
              match r with Ret _ => ([], e, k r) | _ => ([(LMan, false)], delete j e, k r) end)
          end
      | _ => stop
      end
  | Use j o k =>
      match e !! j with
      | Some ob => if through ob o then InCall e [] (act (use_label o) (step o)) (fun r => ([], e, k r)) else stop
      | None => stop
      end
  | Open q k =>
      InCall e [] (p_open q) (fun r =>
        ([], match r with Ret x => JIter x.1 (qi_init x.1) x.2 :: e | _ => e end,
         match r with Ret _ => k (Ret tt) | _ => k Panic end))
  | DropObj j k =>
      match e !! j with
      | Some ob => match obj_holds ob with [] => begin (delete j e) k | hs => Dropping hs (delete j e) k end
      | None => stop
      end
  | GetStore _ _ _ | GetComp _ _ _ _ | GetRes _ _ _ => At e cl
  | ICall j _ _ => match e !! j with Some (JIter _ _ _) => At e cl | _ => stop end
  end.
Definition drop_then hs e cl : place := match hs with [] => begin e cl | _ => Dropping hs e cl end.

(** what comes after a step that left [p] of the call *)
Definition resume {A} e mine (p : prog V A) (k : outcome A -> list hold * list (obj V) * client V) : place :=
  match p with
  | PRet a => let '(hs, e', cl) := k (Ret a) in drop_then hs e' cl
  | PPanic => let '(hs, e', cl) := k Panic in drop_then (mine ++ hs) e' cl
  | PUB | PHang => Lost e
  | p => InCall e mine p k
  end.
(** a step of the thread on the world [w] *)
Definition go_on w (pl : place) : place :=
  match pl with
  | InCall e mine (PAcq l x p) k => resume e ((l, x) :: mine) p k
  | InCall e mine (PRel l x p) k => resume e (drop_hold l x mine) p k
  | InCall e mine (PAct _ f kk) k =>
      match (f w).1 with
      | Ret b => resume e mine (kk b) k
      | Panic => resume e mine PPanic k
      | _ => Lost e
      end
  | Dropping (_ :: hs) e cl => drop_then hs e cl
  | At e (GetStore t x k) => if has_registered t w then Getting (LStore t) x (JStore t x) e (k true) else begin e (k false)
  | At e (GetComp t id x k) => if has_registered t w then Taking t id x e k else begin e (k false)
  | At e (GetRes r x k) => if has_res r w then Getting (LRes r) x (JRes r x) e (k true) else begin e (k false)
  | At e (ICall j c k) =>
      match e !! j with
      | Some (JIter J st hs) =>
          match run_call J (own_writes hs c) (w, st) with
          | (UB, _) | (Block, _) => Lost e
          | (o, (_, st')) => begin (<[j := JIter J st' hs]> e) (k o)
          end
      | _ => pl
      end
  | Getting l x ob e cl => begin (ob :: e) cl
  | Taking t id x e k => Looking t id x e k
  | Looking t id x e k => if storage_has w id t then begin (JStore t x :: e) (k true) else Dropping [(LStore t, x)] e (k false)
  | pl => pl
  end.
(** Following thread [i] along a schedule. *)
Fixpoint walk (i : nat) (pl : place) (sched : list nat) (c : conf V) : place :=
  match sched with
  | [] => pl
  | j :: sched' =>
      match cstep j c with
      | None => pl
      | Some c' => walk i (if decide (j = i) then go_on (cf_world c) pl else pl) sched' c'
      end
  end.
(** where thread [i] is after the schedule, and the objects it then keeps *)
Definition place_of (i : nat) (sched : list nat) w (cs : list (client V)) : place :=
  match cs !! i with Some cl => walk i (begin [] cl) sched (start w cs) | None => Lost [] end.
Definition kept_by (i : nat) (sched : list nat) w (cs : list (client V)) : list (obj V) := keeping (place_of i sched w cs).
(** an [Entity] or [Entities] handle *)
Definition is_handle_obj (ob : obj V) : bool := match ob with JEntity _ | JEntities _ _ => true | _ => false end.
End keep.

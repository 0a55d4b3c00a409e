(** The specification: what an xecs world means to a user.  Independent of
    the model (imports only the vocabulary of Api.v and the outcome type).

    An abstract world is: how many ids were ever handed out (they are
    1..a_next), the stack of removed ids waiting to be reused, for every
    registered type a finite map from entities to values, the groups with
    their current members, and the resources. *)
From stdpp Require Import prelude list gmap.
From Verif Require Import Base Api.

(** A group: kind, the two types, the entities it currently contains.
    [ag_fresh] matters for non-owning groups only: it becomes false when an
    operation may have moved a component of one of its two types to another
    place in its storage (non-owning groups remember places; see C30). *)
Record agroup : Type := AG {
  ag_kind : gkind; ag_a : nat; ag_b : nat; ag_mem : gset nat; ag_fresh : bool
}.

Definition ag_types (g : agroup) (t : nat) : bool := (ag_a g =? t) || (ag_b g =? t).
(** Full-owning groups own both types, partial-owning ones the first. *)
Definition ag_owns (g : agroup) (t : nat) : bool :=
  match ag_kind g with
  | KFull => (ag_a g =? t) || (ag_b g =? t)
  | KPart => ag_a g =? t
  | KNon => false
  end.
Definition ag_same (k : gkind) (a b : nat) (g : agroup) : bool :=
  match k, ag_kind g with
  | KFull, KFull | KPart, KPart | KNon, KNon => (ag_a g =? a) && (ag_b g =? b)
  | _, _ => false
  end.

Section spec.
Context {V : Type}.

Record aworld : Type := AW {
  a_next : nat;
  a_free : list nat;                       (* most recently removed first *)
  a_comps : gmap nat (gmap nat V);         (* type -> entity -> value *)
  a_slots : nat -> nat;    (* 1 + largest entity that ever got the type; 0 if none did *)
  a_groups : list agroup;
  a_res : gmap nat V
}.

Definition a_init : aworld := AW 0 [] ∅ (fun _ => 0) [] ∅.

Implicit Types aw : aworld.

(** Entities *)
Definition allocated aw (id : nat) : Prop := 1 <= id <= a_next aw.
Definition live aw (id : nat) : Prop := allocated aw id /\ id ∉ a_free aw.
#[global] Instance live_dec aw id : Decision (live aw id).
Proof. unfold live, allocated. apply _. Defined.

(** Components *)
Definition comp aw (t id : nat) : option V := a_comps aw !! t ≫= (fun m => m !! id).
Definition has aw (t id : nat) : Prop := is_Some (comp aw t id).
#[global] Instance has_dec aw t id : Decision (has aw t id).
Proof. unfold has. apply _. Defined.
Definition registered aw (t : nat) : Prop := is_Some (a_comps aw !! t).
#[global] Instance registered_dec aw t : Decision (registered aw t).
Proof. unfold registered. apply _. Defined.

(** What [exist(id)] answers.  A user expects [Ret (decide (live id))].  The
    code answers true also for the removed id that has waited longest (bottom
    of the stack; C13), and panics for ids never handed out (C14). *)
Definition a_exist aw (id : nat) : outcome bool :=
  if decide (a_next aw < id) then Panic
  else Ret (bool_decide (id ∉ a_free aw \/ last (a_free aw) = Some id)).

(** ** Groups *)

(** the entities having both types *)
Definition both aw (a b : nat) : gset nat :=
  dom (default ∅ (a_comps aw !! a)) ∩ dom (default ∅ (a_comps aw !! b)).

(** Does some owning group containing type [t] own a type of [g]?  Then an
    attach/detach of [t] may reorder a storage [g] looks at. *)
Definition reordered (gs : list agroup) (t : nat) (g : agroup) : bool :=
  existsb (fun h => ag_types h t && (ag_owns h (ag_a g) || ag_owns h (ag_b g))) gs.

(** Attaching [t] to [id] puts it into every group of [t] whose two types it
    now has. [has'] is the world after the attach. *)
Definition g_attach (gs : list agroup) aw' (t id : nat) (g : agroup) : agroup :=
  AG (ag_kind g) (ag_a g) (ag_b g)
     (if ag_types g t && bool_decide (has aw' (ag_a g) id) && bool_decide (has aw' (ag_b g) id)
      then {[id]} ∪ ag_mem g else ag_mem g)
     (ag_fresh g && negb (reordered gs t g)).
(** Detaching [t] from [id] (which has it) takes it out of every group of [t]. *)
Definition g_detach (gs : list agroup) (t id : nat) (g : agroup) : agroup :=
  AG (ag_kind g) (ag_a g) (ag_b g)
     (if ag_types g t then ag_mem g ∖ {[id]} else ag_mem g)
     (ag_fresh g && negb (reordered gs t g) && negb (ag_types g t)).
(** Removing [id] takes it out of every group. *)
Definition g_remove aw (id : nat) (g : agroup) : agroup :=
  AG (ag_kind g) (ag_a g) (ag_b g) (ag_mem g ∖ {[id]})
     (ag_fresh g && negb (bool_decide (has aw (ag_a g) id)) && negb (bool_decide (has aw (ag_b g) id))).
(** Creating an owning group reorders what it owns. *)
Definition g_made (h : agroup) (g : agroup) : agroup :=
  AG (ag_kind g) (ag_a g) (ag_b g) (ag_mem g)
     (ag_fresh g && negb (ag_owns h (ag_a g) || ag_owns h (ag_b g))).

(** make_group is refused if the group exists or would own an owned type. *)
Definition group_refused aw (k : gkind) (a b : nat) : bool :=
  existsb (ag_same k a b) (a_groups aw) ||
  existsb (fun h => (ag_owns h a && ag_owns (AG k a b ∅ true) a)
                    || (ag_owns h b && ag_owns (AG k a b ∅ true) b)) (a_groups aw).

(** ** Queries *)

(** The item of a query for one entity. *)
Definition pair_get aw (a b id : nat) : option (vtree V) :=
  match comp aw a id, comp aw b id with
  | Some x, Some y => Some (V2 (VLeaf x) (VLeaf y))
  | _, _ => None
  end.
Definition find_agroup aw (k : gkind) (a b : nat) : option agroup :=
  List.find (ag_same k a b) (a_groups aw).
Fixpoint q_get aw (q : query) (id : nat) : option (vtree V) :=
  match q with
  | QRef _ t => VLeaf <$> comp aw t id
  | Q2 a b =>
      match q_get aw a id, q_get aw b id with
      | Some x, Some y => Some (V2 x y)
      | _, _ => None
      end
  | Q3 a b c =>
      match q_get aw a id, q_get aw b id, q_get aw c id with
      | Some x, Some y, Some z => Some (V3 x y z)
      | _, _, _ => None
      end
  | Q4 a b c d =>
      match q_get aw a id, q_get aw b id, q_get aw c id, q_get aw d id with
      | Some x, Some y, Some z, Some u => Some (V4 x y z u)
      | _, _, _, _ => None
      end
  | Q5 a b c d e =>
      match q_get aw a id, q_get aw b id, q_get aw c id, q_get aw d id, q_get aw e id with
      | Some x, Some y, Some z, Some u, Some v => Some (V5 x y z u v)
      | _, _, _, _, _ => None
      end
  | QWithoutL a b => match q_get aw a id with None => q_get aw b id | Some _ => None end
  | QWithoutR a b => match q_get aw b id with None => q_get aw a id | Some _ => None end
  | QGroup KNon _ _ a b =>
      match find_agroup aw KNon a b with
      | Some g => if decide (id ∈ ag_mem g) then pair_get aw a b id else None
      | None => None
      end
  | QGroup _ _ _ a b => pair_get aw a b id
  end.

(** Does iterating the query visit the entity? *)
Fixpoint q_visits aw (q : query) (id : nat) : bool :=
  match q with
  | QRef _ t => bool_decide (has aw t id)
  | Q2 a b => q_visits aw a id && bool_decide (is_Some (q_get aw b id))
  | Q3 a b c => q_visits aw a id && bool_decide (is_Some (q_get aw b id))
                && bool_decide (is_Some (q_get aw c id))
  | Q4 a b c d => q_visits aw a id && bool_decide (is_Some (q_get aw b id))
                && bool_decide (is_Some (q_get aw c id)) && bool_decide (is_Some (q_get aw d id))
  | Q5 a b c d e => q_visits aw a id && bool_decide (is_Some (q_get aw b id))
                && bool_decide (is_Some (q_get aw c id)) && bool_decide (is_Some (q_get aw d id))
                && bool_decide (is_Some (q_get aw e id))
  | QWithoutL a b => q_visits aw b id && bool_decide (q_get aw a id = None)
  | QWithoutR a b => q_visits aw a id && bool_decide (q_get aw b id = None)
  | QGroup k _ _ a b =>
      match find_agroup aw k a b with
      | Some g => bool_decide (id ∈ ag_mem g)
      | None => false
      end
  end.

(** The locks a query takes, in order, or a group it needs to exist. *)
Inductive req : Type :=
| RType (t : nat)                 (* must be registered *)
| RLock (t : nat) (m : bool)      (* is locked; [m]: exclusively *)
| RGroup (k : gkind) (a b : nat). (* must exist *)
Fixpoint q_reqs (q : query) : list req :=
  match q with
  | QRef m t => [RType t; RLock t m]
  | Q2 a b | QWithoutL a b | QWithoutR a b => q_reqs a ++ q_reqs b
  | Q3 a b c => q_reqs a ++ q_reqs b ++ q_reqs c
  | Q4 a b c d => q_reqs a ++ q_reqs b ++ q_reqs c ++ q_reqs d
  | Q5 a b c d e => q_reqs a ++ q_reqs b ++ q_reqs c ++ q_reqs d ++ q_reqs e
  | QGroup k ma mb a b => [RType a; RType b; RLock a ma; RLock b mb; RGroup k a b]
  end.
(** Outcome of opening: locking a storage twice where one of the two locks is
    exclusive never returns; a missing type or group panics. *)
Fixpoint open_reqs aw (rs : list req) (held : list (nat * bool)) : outcome unit :=
  match rs with
  | [] => Ret tt
  | RType t :: rs' => if decide (registered aw t) then open_reqs aw rs' held else Panic
  | RLock t m :: rs' =>
      if existsb (fun x => (x.1 =? t) && (x.2 || m)) held then Block
      else open_reqs aw rs' ((t, m) :: held)
  | RGroup k a b :: rs' =>
      if existsb (ag_same k a b) (a_groups aw) then open_reqs aw rs' held else Panic
  end.
Definition a_open aw (q : query) : outcome unit := open_reqs aw (q_reqs q) [].

(** Types the items of a query give mutable access to. *)
Fixpoint q_muts (q : query) : list nat :=
  match q with
  | QRef m t => if m then [t] else []
  | Q2 a b => q_muts a ++ q_muts b
  | Q3 a b c => q_muts a ++ q_muts b ++ q_muts c
  | Q4 a b c d => q_muts a ++ q_muts b ++ q_muts c ++ q_muts d
  | Q5 a b c d e => q_muts a ++ q_muts b ++ q_muts c ++ q_muts d ++ q_muts e
  | QWithoutL a b => q_muts b
  | QWithoutR a b => q_muts a
  | QGroup _ ma mb a b => (if ma then [a] else []) ++ (if mb then [b] else [])
  end.

(** The non-owning groups a query iterates have not been disturbed since they
    were made. *)
Fixpoint q_fresh aw (q : query) : bool :=
  match q with
  | QRef _ _ => true
  | Q2 a b | QWithoutL a b | QWithoutR a b => q_fresh aw a && q_fresh aw b
  | Q3 a b c => q_fresh aw a && q_fresh aw b && q_fresh aw c
  | Q4 a b c d => q_fresh aw a && q_fresh aw b && q_fresh aw c && q_fresh aw d
  | Q5 a b c d e =>
      q_fresh aw a && q_fresh aw b && q_fresh aw c && q_fresh aw d && q_fresh aw e
  | QGroup KNon _ _ a b =>
      match find_agroup aw KNon a b with Some g => ag_fresh g | None => true end
  | QGroup _ _ _ _ _ => true
  end.

(** The result of a query: exactly the visited entities with their items,
    each once, in some order. *)
Definition q_result aw (q : query) (l : list (nat * vtree V)) : Prop :=
  NoDup l.*1 /\
  forall id v, (id, v) ∈ l <-> q_visits aw q id = true /\ q_get aw q id = Some v.

(** ** The effect of a call *)

Definition a_set_comps (c : gmap nat (gmap nat V)) aw : aworld :=
  AW (a_next aw) (a_free aw) c (a_slots aw) (a_groups aw) (a_res aw).
Definition a_set_groups (gs : list agroup) aw : aworld :=
  AW (a_next aw) (a_free aw) (a_comps aw) (a_slots aw) gs (a_res aw).
Definition a_set_res (r : gmap nat V) aw : aworld :=
  AW (a_next aw) (a_free aw) (a_comps aw) (a_slots aw) (a_groups aw) r.
Definition a_set_slots (t n : nat) aw : aworld :=
  AW (a_next aw) (a_free aw) (a_comps aw)
     (fun u => if decide (u = t) then a_slots aw u `max` n else a_slots aw u)
     (a_groups aw) (a_res aw).

(** give [id] the component [v] of the registered type [t] *)
Definition a_put (t id : nat) (v : V) aw : aworld :=
  a_set_comps (alter (<[id := v]>) t (a_comps aw)) aw.

Definition a_attach (t id : nat) (v : V) aw : aworld :=
  let aw' := a_set_slots t (S id) (a_put t id v aw) in
  a_set_groups (g_attach (a_groups aw) aw' t id <$> a_groups aw) aw'.

Definition a_detach (t id : nat) aw : aworld :=
  a_set_groups (g_detach (a_groups aw) t id <$> a_groups aw)
    (a_set_comps (alter (delete id) t (a_comps aw)) aw).

Definition a_batch (lo hi t : nat) (vs : list V) aw : aworld :=
  (if lo <? hi then a_set_slots t hi else id)
    (a_set_comps (alter (fun m => list_to_map (zip (seq lo (hi - lo)) vs) ∪ m) t (a_comps aw)) aw).

Definition a_remove (id : nat) aw : aworld :=
  AW (a_next aw) (id :: a_free aw) (delete id <$> a_comps aw) (a_slots aw)
     (g_remove aw id <$> a_groups aw) (a_res aw).

Definition a_make (k : gkind) (a b : nat) aw : aworld :=
  let h := AG k a b (both aw a b) true in
  a_set_groups ((g_made h <$> a_groups aw) ++ [h]) aw.

(** for every visited entity and every mutably queried type, apply [f] *)
Definition a_query_mut (q : query) (f : nat -> nat -> V -> V) aw : aworld :=
  a_set_comps
    (map_imap (fun t m => Some (map_imap (fun id v =>
        Some (if q_visits aw q id && bool_decide (t ∈ q_muts q) then f t id v else v)) m))
      (a_comps aw)) aw.

(** The state after a call. *)
Definition anext aw (o : op V) : aworld :=
  match o with
  | Register t => if decide (registered aw t) then aw else
      a_set_comps (<[t := ∅]> (a_comps aw)) aw
  | CreateEntity =>
      match a_free aw with
      | f :: fs => AW (a_next aw) fs (a_comps aw) (a_slots aw) (a_groups aw) (a_res aw)
      | [] => AW (S (a_next aw)) [] (a_comps aw) (a_slots aw) (a_groups aw) (a_res aw)
      end
  | CreateEntities n =>
      AW (a_next aw + n) (a_free aw) (a_comps aw) (a_slots aw) (a_groups aw) (a_res aw)
  | RemoveEntity id _ => if decide (live aw id) then a_remove id aw else aw
  | Attach t id v =>
      match a_exist aw id with
      | Ret true => if decide (registered aw t) then a_attach t id v aw else aw
      | _ => aw
      end
  | Detach t id =>
      match a_exist aw id with
      | Ret true => if decide (has aw t id) then a_detach t id aw else aw
      | _ => aw
      end
  | BatchAttach lo hi t vs =>
      if decide (registered aw t /\ length vs = hi - lo) then a_batch lo hi t vs aw else aw
  | WriteComp t id v | StoreGetMut t id v =>
      if decide (has aw t id) then a_put t id v aw else aw
  | MakeGroup k a b => if group_refused aw k a b then aw else a_make k a b aw
  | QueryMut q f => match a_open aw q with Ret _ => a_query_mut q f aw | _ => aw end
  | RegisterRes r v => a_set_res (<[r := v]> (a_res aw)) aw
  | WriteRes r v => if decide (is_Some (a_res aw !! r)) then a_set_res (<[r := v]> (a_res aw)) aw else aw
  | HasRegistered _ | Exist _ | ReadComp _ _ | StoreCount _ | StoreIsEmpty _ | StoreExist _ _
  | StoreGet _ _ | StoreData _ | StoreDataSet _ _ _ | Query _ | ReadRes _ => aw
  end.

(** The result of a call. *)
Definition aout aw (o : op V) (r : outcome (out V)) : Prop :=
  match o with
  | Register t => r = if decide (registered aw t) then Panic else Ret OUnit
  | HasRegistered t => r = Ret (OBool (bool_decide (registered aw t)))
  | CreateEntity =>
      r = Ret (OId (match a_free aw with f :: _ => f | [] => S (a_next aw) end))
  | CreateEntities n => r = Ret (ORange (S (a_next aw)) (S (a_next aw) + n))
  | RemoveEntity id _ => r = if decide (live aw id) then Ret OUnit else Panic
  | Exist id => r = match a_exist aw id with Ret b => Ret (OBool b) | _ => Panic end
  | Attach t id v =>
      r = match a_exist aw id with
          | Ret true => if decide (registered aw t) then Ret OUnit else Panic
          | _ => Panic
          end
  | Detach t id =>
      r = match a_exist aw id with
          | Ret true =>
              if decide (registered aw t) then
                match comp aw t id with
                | Some v => Ret (OVal (Some v))
                | None => (* a user expects [Ret (OVal None)]; see C04 *)
                    if decide (id = a_slots aw t) then Panic else Ret (OVal None)
                end
              else Panic
          | _ => Panic
          end
  | BatchAttach lo hi t vs =>
      r = if decide (registered aw t /\ length vs = hi - lo) then Ret OUnit else Panic
  | ReadComp t id => r = Ret (OVal (comp aw t id))
  | WriteComp t id v | StoreGetMut t id v => r = Ret (OBool (bool_decide (has aw t id)))
  | StoreCount t => r = Ret (ONatOpt (size <$> a_comps aw !! t))
  | StoreIsEmpty t => r = Ret (OBoolOpt ((fun m : gmap nat V => bool_decide (m = ∅)) <$> a_comps aw !! t))
  | StoreExist t id =>
      r = Ret (OBoolOpt ((fun m : gmap nat V => bool_decide (is_Some (m !! id))) <$> a_comps aw !! t))
  | StoreGet t id => r = Ret (OValOpt ((fun m : gmap nat V => m !! id) <$> a_comps aw !! t))
  | StoreData t =>
      exists l, r = Ret (OData l) /\
        match a_comps aw !! t, l with
        | Some m, Some vs => vs ≡ₚ (map_to_list m).*2
        | None, None => True
        | _, _ => False
        end
  | StoreDataSet _ _ _ => True              (* see C03 *)
  | MakeGroup k a b => r = if group_refused aw k a b then Panic else Ret OUnit
  | Query q | QueryMut q _ =>
      match a_open aw q with
      | Ret _ => exists l, r = Ret (OItems l) /\ q_result aw q l
      | Panic => r = Panic
      | UB => False
      | Block => r = Block
      end
  | RegisterRes r' v => r = Ret OUnit
  | ReadRes r' => r = Ret (OVal (a_res aw !! r'))
  | WriteRes r' v => r = Ret (OBool (bool_decide (is_Some (a_res aw !! r'))))
  end.

(** Never is an entity in a group and in a later group one of whose types the
    first one owns. *)
Definition apart (gs : list agroup) (id : nat) : Prop :=
  forall i j g h t, i < j -> gs !! i = Some g -> gs !! j = Some h ->
    id ∈ ag_mem g -> id ∈ ag_mem h -> ag_owns g t = true -> ag_types h t = false.

(** The rules of use under which the crate behaves as specified.  Each rule
    that a user would not expect has a refutation theorem showing what goes
    wrong without it (see DESIGN.md). *)
Definition legal aw (o : op V) : Prop :=
  match o with
  | RemoveEntity id ord =>
      (* ids are non-zero *)
      1 <= id /\
      (* not the longest waiting removed id (C15) *)
      last (a_free aw) <> Some id /\
      (* not in two groups of which the earlier owns a type of the later (C31) *)
      apart (a_groups aw) id /\
      (* [ord] is an enumeration of the component table: not a rule, a fact *)
      ord ≡ₚ (map_to_list (a_comps aw)).*1
  | Exist id | Attach _ id _ | Detach _ id | ReadComp _ id | WriteComp _ id _
  | StoreExist _ id | StoreGet _ id | StoreGetMut _ id _ => 1 <= id
  | BatchAttach lo hi t vs =>
      (* the handle comes from create_entities: not a rule, a fact *)
      1 <= lo /\ (lo < hi -> hi <= S (a_next aw)) /\
      (* none of them has the type yet (C07) *)
      forall id, lo <= id < hi -> comp aw t id = None
  | MakeGroup k a b =>
      group_refused aw k a b = true \/
      (* registered types, two different ones if owning (C34) *)
      (registered aw a /\ registered aw b /\ (a <> b \/ k = KNon))
  | Query q | QueryMut q _ => q_fresh aw q = true   (* C30 *)
  | StoreDataSet _ _ _ => False   (* equivalent to a StoreGetMut, see C03 *)
  | _ => True
  end.

Fixpoint aexec (ops : list (op V)) aw : aworld :=
  match ops with
  | [] => aw
  | o :: ops' => aexec ops' (anext aw o)
  end.
Fixpoint legal_all (ops : list (op V)) aw : Prop :=
  match ops with
  | [] => True
  | o :: ops' => legal aw o /\ legal_all ops' (anext aw o)
  end.

(** The calls [ops], made on a new world, keep to the rules of use. *)
Definition rules (ops : list (op V)) : Prop := legal_all ops a_init.

End spec.
Arguments aworld : clear implicits.

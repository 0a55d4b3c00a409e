(** Model of src/query/{mod,with,without}.rs and src/group/*/query.rs.

    An iterator is an object: hidden state and the methods of the traits
    [Iterator] and [QueryIterator] (src/query/mod.rs:76-81).  Methods take the
    world, because the code dereferences pointers into the locked storages at
    every call (values may have been changed through yielded [&mut] items).
    A yielded reference is a location: type of the storage and position in
    its data vector. *)
From stdpp Require Import prelude list gmap.
From Verif Require Import Base Api ModelSparse ModelEntity ModelGroup ModelWorld.

(** A yielded item: references and tuples of them. *)
Inductive item : Type :=
| IRef (m : bool) (t : tid) (i : nat)
| I2 (a b : item)
| I3 (a b c : item)
| I4 (a b c d : item)
| I5 (a b c d e : item).

(** The references an item consists of: is it mutable, type, position in the
    dense array of that type's storage. *)
Fixpoint item_refs (it : item) : list (bool * tid * nat) :=
  match it with
  | IRef m t i => [(m, t, i)]
  | I2 a b => item_refs a ++ item_refs b
  | I3 a b c => item_refs a ++ item_refs b ++ item_refs c
  | I4 a b c d => item_refs a ++ item_refs b ++ item_refs c ++ item_refs d
  | I5 a b c d e => item_refs a ++ item_refs b ++ item_refs c ++ item_refs d ++ item_refs e
  end.

(** [while let Some(x) = next() { if let Some(r) = body(x) { return Some(r) } } None].
    [fuel] bounds the number of iterations; running out of it is reported as
    [Block] (would not return) and is proved never to happen. *)
Fixpoint while_some {S X R} (fuel : nat) (next : M S (option X))
    (body : X -> M S (option R)) : M S (option R) :=
  match fuel with
  | 0 => fun s => (Block, s)
  | Datatypes.S fuel' =>
      let! ox := next in
      match ox with
      | None => ret None
      | Some x =>
          let! r := body x in
          match r with
          | Some y => ret (Some y)
          | None => while_some fuel' next body
          end
      end
  end.

Definition on_fst {S T A} (m : M S A) : M (S * T) A := fun s =>
  match m s.1 with (o, s') => (o, (s', s.2)) end.
Definition on_snd {S T A} (m : M T A) : M (S * T) A := fun s =>
  match m s.2 with (o, s') => (o, (s.1, s')) end.

Section query.
Context {V : Type}.
Notation world := (world V).

(** [dyn QueryIterator]: src/query/mod.rs:76-81 with [Iterator::next] and
    [Iterator::size_hint].  [qi_hint]: [Ret (Some n)] for [(n,Some(n))],
    [Ret None] for the default [(0,None)].  [qi_fuel] is not code: a bound on
    the remaining number of items, used as loop fuel. *)
Record qiter : Type := QI {
  qi_st : Type;
  qi_init : qi_st;
  qi_next : world -> M qi_st (option item);
  qi_next_id : world -> M qi_st (option (nat * item));
  qi_from_id : world -> nat -> M qi_st (option item);
  qi_hint : world -> qi_st -> outcome (option nat);
  qi_fuel : world -> qi_st -> nat
}.

(** Dereferencing the raw pointer to the storage of [t] kept next to its
    guard ([unsafe { &*self.sparse_set }]). *)
Definition ptr {S} (w : world) (t : tid) : M S (sset V) :=
  match w_comps w !! t with
  | Some st => ret (st_set st)
  | None => ub
  end.

(** [data().get_unchecked(i)] (and [_mut]): UB out of range. *)
Definition data_unchecked {S} (s : sset V) (i : nat) : M S nat :=
  if i <? length (sdata s) then ret i else ub.
(** [entities().get_unchecked(i)] *)
Definition ent_unchecked {S} (s : sset V) (i : nat) : M S nat :=
  match entities s !! i with Some e => ret e | None => ub end.

(** [count - index] for size_hint: [usize] underflow panics (debug). *)
Definition sub_hint (n i : nat) : outcome (option nat) :=
  if n <? i then Panic else Ret (Some (n - i)).

(** [self.borrow.count()], src/query/mod.rs:133 etc. *)
Definition st_count (w : world) (t : tid) : nat :=
  match w_comps w !! t with Some st => ss_len (st_set st) | None => 0 end.

(** IterRef / IterMut: src/query/mod.rs:98-192 and 197-291 (same code, [m]
    tells which). *)
Definition iter_ref (m : bool) (t : tid) : qiter := {|
  qi_st := nat;
  qi_init := 0;
  (* src/query/mod.rs:132-149, 231-248 *)
  qi_next := fun w =>
    let! index := get in
    let! s := ptr w t in
    if index <? ss_len s then
      let! i := data_unchecked s index in
      put (index + 1) >>!
      ret (Some (IRef m t i))
    else ret None;
  (* src/query/mod.rs:169-191, 268-290 *)
  qi_next_id := fun w =>
    let! index := get in
    let! s := ptr w t in
    if index <? ss_len s then
      let! id := ent_unchecked s index in
      let! i := data_unchecked s index in
      put (index + 1) >>!
      ret (Some (id, IRef m t i))
    else ret None;
  (* src/query/mod.rs:160-167, 259-266 *)
  qi_from_id := fun w id =>
    let! s := ptr w t in
    let! r := lift (ss_get_loc s id) in
    ret (IRef m t <$> r);
  (* src/query/mod.rs:151-154, 250-253 *)
  qi_hint := fun w index => sub_hint (st_count w t) index;
  qi_fuel := fun w index => st_count w t - index
|}.

(** [WithIter<A,B>]: src/query/with.rs:17-53 *)
Definition with2 (A B : qiter) : qiter := {|
  qi_st := qi_st A * qi_st B;
  qi_init := (qi_init A, qi_init B);
  (* with.rs:25-32 *)
  qi_next := fun w =>
    let! st := get in
    while_some (S (qi_fuel A w st.1)) (on_fst (qi_next_id A w)) (fun '(id, a) =>
      let! ob := on_snd (qi_from_id B w id) in
      match ob with
      | Some b => ret (Some (I2 a b))
      | None => ret None
      end);
  (* with.rs:45-52 *)
  qi_next_id := fun w =>
    let! st := get in
    while_some (S (qi_fuel A w st.1)) (on_fst (qi_next_id A w)) (fun '(id, a) =>
      let! ob := on_snd (qi_from_id B w id) in
      match ob with
      | Some b => ret (Some (id, I2 a b))
      | None => ret None
      end);
  (* with.rs:36-43 *)
  qi_from_id := fun w id =>
    let! oa := on_fst (qi_from_id A w id) in
    match oa with
    | None => ret None
    | Some a =>
        let! ob := on_snd (qi_from_id B w id) in
        match ob with
        | None => ret None
        | Some b => ret (Some (I2 a b))
        end
    end;
  (* Iterator::size_hint not overridden *)
  qi_hint := fun _ _ => Ret None;
  qi_fuel := fun w st => qi_fuel A w st.1
|}.

(** [WithIter3]: src/query/with.rs:77-126 *)
Definition with3 (A B C : qiter) : qiter := {|
  qi_st := qi_st A * (qi_st B * qi_st C);
  qi_init := (qi_init A, (qi_init B, qi_init C));
  (* with.rs:89-98 *)
  qi_next := fun w =>
    let! st := get in
    while_some (S (qi_fuel A w st.1)) (on_fst (qi_next_id A w)) (fun '(id, a) =>
      let! ob := on_snd (on_fst (qi_from_id B w id)) in
      match ob with
      | Some b =>
          let! oc := on_snd (on_snd (qi_from_id C w id)) in
          match oc with
          | Some c => ret (Some (I3 a b c))
          | None => ret None
          end
      | None => ret None
      end);
  (* with.rs:116-125 *)
  qi_next_id := fun w =>
    let! st := get in
    while_some (S (qi_fuel A w st.1)) (on_fst (qi_next_id A w)) (fun '(id, a) =>
      let! ob := on_snd (on_fst (qi_from_id B w id)) in
      match ob with
      | Some b =>
          let! oc := on_snd (on_snd (qi_from_id C w id)) in
          match oc with
          | Some c => ret (Some (id, I3 a b c))
          | None => ret None
          end
      | None => ret None
      end);
  (* with.rs:105-114 *)
  qi_from_id := fun w id =>
    let! oa := on_fst (qi_from_id A w id) in
    match oa with
    | None => ret None
    | Some a =>
        let! ob := on_snd (on_fst (qi_from_id B w id)) in
        match ob with
        | None => ret None
        | Some b =>
            let! oc := on_snd (on_snd (qi_from_id C w id)) in
            match oc with
            | None => ret None
            | Some c => ret (Some (I3 a b c))
            end
        end
    end;
  qi_hint := fun _ _ => Ret None;
  qi_fuel := fun w st => qi_fuel A w st.1
|}.

(** [WithIter4]: src/query/with.rs:155-213 *)
Definition with4 (A B C D : qiter) : qiter := {|
  qi_st := qi_st A * (qi_st B * (qi_st C * qi_st D));
  qi_init := (qi_init A, (qi_init B, (qi_init C, qi_init D)));
  (* with.rs:169-180 *)
  qi_next := fun w =>
    let! st := get in
    while_some (S (qi_fuel A w st.1)) (on_fst (qi_next_id A w)) (fun '(id, a) =>
      let! ob := on_snd (on_fst (qi_from_id B w id)) in
      match ob with
      | Some b =>
          let! oc := on_snd (on_snd (on_fst (qi_from_id C w id))) in
          match oc with
          | Some c =>
              let! od := on_snd (on_snd (on_snd (qi_from_id D w id))) in
              match od with
              | Some d => ret (Some (I4 a b c d))
              | None => ret None
              end
          | None => ret None
          end
      | None => ret None
      end);
  (* with.rs:201-212 *)
  qi_next_id := fun w =>
    let! st := get in
    while_some (S (qi_fuel A w st.1)) (on_fst (qi_next_id A w)) (fun '(id, a) =>
      let! ob := on_snd (on_fst (qi_from_id B w id)) in
      match ob with
      | Some b =>
          let! oc := on_snd (on_snd (on_fst (qi_from_id C w id))) in
          match oc with
          | Some c =>
              let! od := on_snd (on_snd (on_snd (qi_from_id D w id))) in
              match od with
              | Some d => ret (Some (id, I4 a b c d))
              | None => ret None
              end
          | None => ret None
          end
      | None => ret None
      end);
  (* with.rs:188-199 *)
  qi_from_id := fun w id =>
    let! oa := on_fst (qi_from_id A w id) in
    match oa with
    | None => ret None
    | Some a =>
        let! ob := on_snd (on_fst (qi_from_id B w id)) in
        match ob with
        | None => ret None
        | Some b =>
            let! oc := on_snd (on_snd (on_fst (qi_from_id C w id))) in
            match oc with
            | None => ret None
            | Some c =>
                let! od := on_snd (on_snd (on_snd (qi_from_id D w id))) in
                match od with
                | None => ret None
                | Some d => ret (Some (I4 a b c d))
                end
            end
        end
    end;
  qi_hint := fun _ _ => Ret None;
  qi_fuel := fun w st => qi_fuel A w st.1
|}.

(** [WithIter5]: src/query/with.rs:247-314 *)
Definition with5 (A B C D E : qiter) : qiter := {|
  qi_st := qi_st A * (qi_st B * (qi_st C * (qi_st D * qi_st E)));
  qi_init := (qi_init A, (qi_init B, (qi_init C, (qi_init D, qi_init E))));
  (* with.rs:263-276 *)
  qi_next := fun w =>
    let! st := get in
    while_some (S (qi_fuel A w st.1)) (on_fst (qi_next_id A w)) (fun '(id, a) =>
      let! ob := on_snd (on_fst (qi_from_id B w id)) in
      match ob with
      | Some b =>
          let! oc := on_snd (on_snd (on_fst (qi_from_id C w id))) in
          match oc with
          | Some c =>
              let! od := on_snd (on_snd (on_snd (on_fst (qi_from_id D w id)))) in
              match od with
              | Some d =>
                  let! oe := on_snd (on_snd (on_snd (on_snd (qi_from_id E w id)))) in
                  match oe with
                  | Some e => ret (Some (I5 a b c d e))
                  | None => ret None
                  end
              | None => ret None
              end
          | None => ret None
          end
      | None => ret None
      end);
  (* with.rs:300-313 *)
  qi_next_id := fun w =>
    let! st := get in
    while_some (S (qi_fuel A w st.1)) (on_fst (qi_next_id A w)) (fun '(id, a) =>
      let! ob := on_snd (on_fst (qi_from_id B w id)) in
      match ob with
      | Some b =>
          let! oc := on_snd (on_snd (on_fst (qi_from_id C w id))) in
          match oc with
          | Some c =>
              let! od := on_snd (on_snd (on_snd (on_fst (qi_from_id D w id)))) in
              match od with
              | Some d =>
                  let! oe := on_snd (on_snd (on_snd (on_snd (qi_from_id E w id)))) in
                  match oe with
                  | Some e => ret (Some (id, I5 a b c d e))
                  | None => ret None
                  end
              | None => ret None
              end
          | None => ret None
          end
      | None => ret None
      end);
  (* with.rs:285-298 *)
  qi_from_id := fun w id =>
    let! oa := on_fst (qi_from_id A w id) in
    match oa with
    | None => ret None
    | Some a =>
        let! ob := on_snd (on_fst (qi_from_id B w id)) in
        match ob with
        | None => ret None
        | Some b =>
            let! oc := on_snd (on_snd (on_fst (qi_from_id C w id))) in
            match oc with
            | None => ret None
            | Some c =>
                let! od := on_snd (on_snd (on_snd (on_fst (qi_from_id D w id)))) in
                match od with
                | None => ret None
                | Some d =>
                    let! oe := on_snd (on_snd (on_snd (on_snd (qi_from_id E w id)))) in
                    match oe with
                    | None => ret None
                    | Some e => ret (Some (I5 a b c d e))
                    end
                end
            end
        end
    end;
  qi_hint := fun _ _ => Ret None;
  qi_fuel := fun w st => qi_fuel A w st.1
|}.

(** [WithoutIterLeft<A,B>]: src/query/without.rs:22-58 *)
Definition without_left (A B : qiter) : qiter := {|
  qi_st := qi_st A * qi_st B;
  qi_init := (qi_init A, qi_init B);
  (* without.rs:30-37 *)
  qi_next := fun w =>
    let! st := get in
    while_some (S (qi_fuel B w st.2)) (on_snd (qi_next_id B w)) (fun '(id, b) =>
      let! oa := on_fst (qi_from_id A w id) in
      match oa with
      | None => ret (Some b)
      | Some _ => ret None
      end);
  (* without.rs:50-57 *)
  qi_next_id := fun w =>
    let! st := get in
    while_some (S (qi_fuel B w st.2)) (on_snd (qi_next_id B w)) (fun '(id, b) =>
      let! oa := on_fst (qi_from_id A w id) in
      match oa with
      | None => ret (Some (id, b))
      | Some _ => ret None
      end);
  (* without.rs:41-48 *)
  qi_from_id := fun w id =>
    let! oa := on_fst (qi_from_id A w id) in
    match oa with
    | None =>
        let! ob := on_snd (qi_from_id B w id) in
        match ob with
        | Some b => ret (Some b)
        | None => ret None
        end
    | Some _ => ret None
    end;
  qi_hint := fun _ _ => Ret None;
  qi_fuel := fun w st => qi_fuel B w st.2
|}.

(** [WithoutIterRight<A,B>]: src/query/without.rs:77-113 *)
Definition without_right (A B : qiter) : qiter := {|
  qi_st := qi_st A * qi_st B;
  qi_init := (qi_init A, qi_init B);
  (* without.rs:85-92 *)
  qi_next := fun w =>
    let! st := get in
    while_some (S (qi_fuel A w st.1)) (on_fst (qi_next_id A w)) (fun '(id, a) =>
      let! ob := on_snd (qi_from_id B w id) in
      match ob with
      | None => ret (Some a)
      | Some _ => ret None
      end);
  (* without.rs:105-112 *)
  qi_next_id := fun w =>
    let! st := get in
    while_some (S (qi_fuel A w st.1)) (on_fst (qi_next_id A w)) (fun '(id, a) =>
      let! ob := on_snd (qi_from_id B w id) in
      match ob with
      | None => ret (Some (id, a))
      | Some _ => ret None
      end);
  (* without.rs:96-103 *)
  qi_from_id := fun w id =>
    let! ob := on_snd (qi_from_id B w id) in
    match ob with
    | None =>
        let! oa := on_fst (qi_from_id A w id) in
        match oa with
        | Some a => ret (Some a)
        | None => ret None
        end
    | Some _ => ret None
    end;
  qi_hint := fun _ _ => Ret None;
  qi_fuel := fun w st => qi_fuel A w st.1
|}.

(** The four iterators of src/group/full_owning/query.rs (IterRefRef 6-133,
    IterRefMut 139-266, IterMutRef 273-400, IterMutMut 406-533) differ only
    in mutability. *)
Definition iter_full (ma mb : bool) (ta tb : tid) (len : nat) : qiter := {|
  qi_st := nat;                      (* index; [length] is fixed at creation *)
  qi_init := 0;
  (* full_owning/query.rs:59-80, 192-213, 326-347, 459-480 *)
  qi_next := fun w =>
    let! index := get in
    if index <? len then
      let! sa := ptr w ta in
      let! sb := ptr w tb in
      let! ia := data_unchecked sa index in
      let! ib := data_unchecked sb index in
      put (index + 1) >>!
      ret (Some (I2 (IRef ma ta ia) (IRef mb tb ib)))
    else ret None;
  (* full_owning/query.rs:107-132, 240-265, 374-399, 507-532 *)
  qi_next_id := fun w =>
    let! index := get in
    if index <? len then
      let! sa := ptr w ta in
      let! sb := ptr w tb in
      let! id := ent_unchecked sa index in
      let! ia := data_unchecked sa index in
      let! ib := data_unchecked sb index in
      put (index + 1) >>!
      ret (Some (id, I2 (IRef ma ta ia) (IRef mb tb ib)))
    else ret None;
  (* full_owning/query.rs:91-105, 224-238, 358-372, 491-505 *)
  qi_from_id := fun w id =>
    let! sa := ptr w ta in
    let! sb := ptr w tb in
    let! oa := lift (ss_get_loc sa id) in
    match oa with
    | None => ret None
    | Some ia =>
        let! ob := lift (ss_get_loc sb id) in
        match ob with
        | None => ret None
        | Some ib => ret (Some (I2 (IRef ma ta ia) (IRef mb tb ib)))
        end
    end;
  (* full_owning/query.rs:82-85, 215-218, 349-352, 482-485 *)
  qi_hint := fun _ index => sub_hint len index;
  qi_fuel := fun _ index => len - index
|}.

(** The four iterators of src/group/partial_owning/query.rs (IterRefRef
    6-140, IterRefMut 147-281, IterMutRef 290-424, IterMutMut 431-565). *)
Definition iter_part (ma mb : bool) (ta tb : tid) (len : nat) : qiter := {|
  qi_st := nat;
  qi_init := 0;
  (* partial_owning/query.rs:59-86, 200-227, 343-370, 484-511 *)
  qi_next := fun w =>
    let! index := get in
    if index <? len then
      let! sa := ptr w ta in
      let! sb := ptr w tb in
      let! id := ent_unchecked sa index in
      let! ia := data_unchecked sa index in
      let! ob := lift (ss_get_loc sb id) in
      let! ib := unwrap ob in
      put (index + 1) >>!
      ret (Some (I2 (IRef ma ta ia) (IRef mb tb ib)))
    else ret None;
  (* partial_owning/query.rs:112-139, 253-280, 396-423, 537-564 *)
  qi_next_id := fun w =>
    let! index := get in
    if index <? len then
      let! sa := ptr w ta in
      let! sb := ptr w tb in
      let! id := ent_unchecked sa index in
      let! ia := data_unchecked sa index in
      let! ob := lift (ss_get_loc sb id) in
      let! ib := unwrap ob in
      put (index + 1) >>!
      ret (Some (id, I2 (IRef ma ta ia) (IRef mb tb ib)))
    else ret None;
  (* partial_owning/query.rs:97-110, 238-251, 381-394, 522-535 *)
  qi_from_id := fun w id =>
    let! sa := ptr w ta in
    let! sb := ptr w tb in
    let! oa := lift (ss_get_loc sa id) in
    match oa with
    | None => ret None
    | Some ia =>
        let! ob := lift (ss_get_loc sb id) in
        match ob with
        | None => ret None
        | Some ib => ret (Some (I2 (IRef ma ta ia) (IRef mb tb ib)))
        end
    end;
  (* partial_owning/query.rs:88-91, 229-232, 372-375, 513-516 *)
  qi_hint := fun _ index => sub_hint len index;
  qi_fuel := fun _ index => len - index
|}.

(** The pointer to the sparse set inside group number [gi],
    non_owning/query.rs:43-48. *)
Definition gptr {S} (w : world) (gi : nat) : M S (sset (nat * nat)) :=
  match w_groups w !! gi with
  | Some (GNon d) => ret (nd_set d)
  | _ => ub
  end.
Definition gcount (w : world) (gi : nat) : nat :=
  match w_groups w !! gi with
  | Some g => g_len g
  | None => 0
  end.

(** The four iterators of src/group/non_owning/query.rs (IterRefRef 6-164,
    IterRefMut 171-329, IterMutRef 336-494, IterMutMut 502-660). *)
Definition iter_non (ma mb : bool) (ta tb : tid) (gi : nat) : qiter := {|
  qi_st := nat;
  qi_init := 0;
  (* non_owning/query.rs:64-95, 229-260, 394-425, 560-591 *)
  qi_next := fun w =>
    let! index := get in
    let! g := gptr w gi in
    if index <? ss_len g then
      match sdata g !! index with
      | None => ub                                   (* get_unchecked *)
      | Some (ja, jb) =>
          let! sa := ptr w ta in
          let! sb := ptr w tb in
          let! ia := data_unchecked sa ja in
          let! ib := data_unchecked sb jb in
          put (index + 1) >>!
          ret (Some (I2 (IRef ma ta ia) (IRef mb tb ib)))
      end
    else ret None;
  (* non_owning/query.rs:129-163, 294-328, 459-493, 625-659 *)
  qi_next_id := fun w =>
    let! index := get in
    let! g := gptr w gi in
    if index <? ss_len g then
      match entities g !! index, sdata g !! index with
      | Some id, Some (ja, jb) =>
          let! sa := ptr w ta in
          let! sb := ptr w tb in
          let! ia := data_unchecked sa ja in
          let! ib := data_unchecked sb jb in
          put (index + 1) >>!
          ret (Some (id, I2 (IRef ma ta ia) (IRef mb tb ib)))
      | _, _ => ub                                   (* get_unchecked *)
      end
    else ret None;
  (* non_owning/query.rs:106-127, 271-292, 436-457, 602-623 *)
  qi_from_id := fun w id =>
    let! g := gptr w gi in
    let! sa := ptr w ta in
    let! sb := ptr w tb in
    let! oj := lift (ss_get g id) in
    match oj with
    | Some (ja, jb) =>
        let! ia := data_unchecked sa ja in
        let! ib := data_unchecked sb jb in
        ret (Some (I2 (IRef ma ta ia) (IRef mb tb ib)))
    | None => ret None
    end;
  (* non_owning/query.rs:97-100, 262-265, 427-430, 593-596 *)
  qi_hint := fun w index => sub_hint (gcount w gi) index;
  qi_fuel := fun w index => gcount w gi - index
|}.

(** * Opening a query *)

(** Storage locks this query already holds: (type, exclusive). *)
Definition held := list (tid * bool).

(** [RwLock::read]/[write] on the storage of [t] by a thread holding [h]:
    blocks forever if the thread itself holds it in a conflicting mode. *)
Definition lock_conflict (h : held) (t : tid) (m : bool) : bool :=
  existsb (fun x => (x.1 =? t) && (x.2 || m)) h.
Definition lock (t : tid) (m : bool) : M held unit :=
  let! h := get in
  if lock_conflict h t m then (fun s => (Block, s)) else put ((t, m) :: h).

(** [downcast_ref/_mut] of the locked storage *)
Definition downcast (w : world) (t : tid) : M held unit :=
  match w_comps w !! t with
  | None => panic
  | Some st => if st_ty st =? t then ret tt else ub
  end.

(** [World::group], src/world.rs:319-331: position of the first equal group. *)
Fixpoint find_group (g : group) (gs : list group) (i : nat) : option nat :=
  match gs with
  | [] => None
  | h :: gs' => if g_eqb h g then Some i else find_group g gs' (S i)
  end.

(** The [Queryable::query] functions. *)
Fixpoint query_open (w : world) (q : query) : M held qiter :=
  match q with
  | QRef m t =>
      (* src/query/mod.rs:107-125, 206-224 *)
      assert (has_registered t w) >>!
      lock t m >>!
      downcast w t >>!
      ret (iter_ref m t)
  | Q2 a b =>
      (* src/query/with.rs:7-14 *)
      let! ia := query_open w a in
      let! ib := query_open w b in
      ret (with2 ia ib)
  | Q3 a b c =>
      (* src/query/with.rs:65-74 *)
      let! ia := query_open w a in
      let! ib := query_open w b in
      let! ic := query_open w c in
      ret (with3 ia ib ic)
  | Q4 a b c d =>
      (* src/query/with.rs:141-152 *)
      let! ia := query_open w a in
      let! ib := query_open w b in
      let! ic := query_open w c in
      let! id := query_open w d in
      ret (with4 ia ib ic id)
  | Q5 a b c d e =>
      (* src/query/with.rs:231-244 *)
      let! ia := query_open w a in
      let! ib := query_open w b in
      let! ic := query_open w c in
      let! id := query_open w d in
      let! ie := query_open w e in
      ret (with5 ia ib ic id ie)
  | QWithoutL a b =>
      (* src/query/without.rs:12-19 *)
      let! ia := query_open w a in
      let! ib := query_open w b in
      ret (without_left ia ib)
  | QWithoutR a b =>
      (* src/query/without.rs:67-74 *)
      let! ia := query_open w a in
      let! ib := query_open w b in
      ret (without_right ia ib)
  | QGroup k ma mb a b =>
      (* full_owning/query.rs:22-53, 155-186, 289-320, 422-453;
         partial_owning/query.rs:22-53, 163-194, 306-337, 447-478;
         non_owning/query.rs:22-58, 187-223, 352-388, 518-554 *)
      assert (has_registered a w && has_registered b w) >>!
      lock a ma >>!
      lock b mb >>!
      downcast w a >>!
      downcast w b >>!
      assert (has_group (new_group k a b) w) >>!
      let! gi := unwrap (find_group (new_group k a b) (w_groups w) 0) in
      let! g := unwrap (w_groups w !! gi) in
      match k with
      | KFull => ret (iter_full ma mb a b (g_len g))
      | KPart => ret (iter_part ma mb a b (g_len g))
      | KNon =>
          match g with
          | GNon _ => ret (iter_non ma mb a b gi)
          | _ => panic                               (* unreachable!() *)
          end
      end
  end.

(** * Running a query to the end *)

(** Reading the values behind an item. *)
Definition deref_loc (w : world) (t : tid) (i : nat) : option V :=
  match w_comps w !! t with
  | Some st => sdata (st_set st) !! i
  | None => None
  end.
Fixpoint deref (w : world) (it : item) : option (vtree V) :=
  match it with
  | IRef _ t i => VLeaf <$> deref_loc w t i
  | I2 a b =>
      match deref w a, deref w b with
      | Some x, Some y => Some (V2 x y)
      | _, _ => None
      end
  | I3 a b c =>
      match deref w a, deref w b, deref w c with
      | Some x, Some y, Some z => Some (V3 x y z)
      | _, _, _ => None
      end
  | I4 a b c d =>
      match deref w a, deref w b, deref w c, deref w d with
      | Some x, Some y, Some z, Some u => Some (V4 x y z u)
      | _, _, _, _ => None
      end
  | I5 a b c d e =>
      match deref w a, deref w b, deref w c, deref w d, deref w e with
      | Some x, Some y, Some z, Some u, Some v => Some (V5 x y z u v)
      | _, _, _, _, _ => None
      end
  end.

(** [with_id().collect()] ([IdIter::next] is [next_with_id],
    src/query/mod.rs:320-330), reading each item when it is yielded.  A dead
    location is reported as UB. *)
Fixpoint collect (fuel : nat) (w : world) (J : qiter) (st : qi_st J)
    : outcome (list (nat * vtree V)) :=
  match fuel with
  | 0 => Block
  | Datatypes.S fuel' =>
      match qi_next_id J w st with
      | (Ret None, _) => Ret []
      | (Ret (Some (id, it)), st') =>
          match deref w it with
          | None => UB
          | Some v =>
              match collect fuel' w J st' with
              | Ret l => Ret ((id, v) :: l)
              | o => o
              end
          end
      | (Panic, _) => Panic
      | (UB, _) => UB
      | (Block, _) => Block
      end
  end.

(** [world.query::<Q>().with_id()] collected, values read. *)
Definition run_query (w : world) (q : query) : outcome (list (nat * vtree V)) :=
  match query_open w q [] with
  | (Ret J, _) => collect (S (qi_fuel J w (qi_init J))) w J (qi_init J)
  | (Panic, _) => Panic
  | (UB, _) => UB
  | (Block, _) => Block
  end.

(** [world.query::<Q>().with_id().collect()] with the references kept: all the
    items are alive at the same time. *)
Fixpoint collect_items (fuel : nat) (w : world) (J : qiter) (st : qi_st J)
    : outcome (list (nat * item)) :=
  match fuel with
  | 0 => Block
  | Datatypes.S fuel' =>
      match qi_next_id J w st with
      | (Ret None, _) => Ret []
      | (Ret (Some x), st') =>
          match collect_items fuel' w J st' with
          | Ret l => Ret (x :: l)
          | o => o
          end
      | (Panic, _) => Panic
      | (UB, _) => UB
      | (Block, _) => Block
      end
  end.
Definition query_items (w : world) (q : query) : outcome (list (nat * item)) :=
  match query_open w q [] with
  | (Ret J, _) => collect_items (S (qi_fuel J w (qi_init J))) w J (qi_init J)
  | (Panic, _) => Panic
  | (UB, _) => UB
  | (Block, _) => Block
  end.

(** Writing through the mutable references of an item. *)
Definition poke (w : world) (t : tid) (i : nat) (g : V -> V) : world :=
  match w_comps w !! t with
  | Some st =>
      match sdata (st_set st) !! i with
      | Some v => set_comps (<[t := St (st_ty st) (ss_poke i (g v) (st_set st))]> (w_comps w)) w
      | None => w
      end
  | None => w
  end.
Fixpoint poke_item (f : nat -> nat -> V -> V) (id : nat) (it : item) (w : world) : world :=
  match it with
  | IRef m t i => if m then poke w t i (f t id) else w
  | I2 a b => poke_item f id b (poke_item f id a w)
  | I3 a b c => poke_item f id c (poke_item f id b (poke_item f id a w))
  | I4 a b c d =>
      poke_item f id d (poke_item f id c (poke_item f id b (poke_item f id a w)))
  | I5 a b c d e =>
      poke_item f id e (poke_item f id d (poke_item f id c (poke_item f id b (poke_item f id a w))))
  end.

(** [for (id,item) in query.with_id()]: read the item, then set every [&mut T]
    in it to [f T id old]; each item is written before the next one is
    requested.  Result: what was read. *)
Fixpoint drive (fuel : nat) (J : qiter) (f : nat -> nat -> V -> V) (st : qi_st J)
    : M world (list (nat * vtree V)) :=
  match fuel with
  | 0 => fun w => (Block, w)
  | Datatypes.S fuel' => fun w =>
      match qi_next_id J w st with
      | (Ret None, _) => (Ret [], w)
      | (Ret (Some (id, it)), st') =>
          match deref w it with
          | None => (UB, w)
          | Some v =>
              match drive fuel' J f st' (poke_item f id it w) with
              | (Ret l, w') => (Ret ((id, v) :: l), w')
              | r => r
              end
          end
      | (Panic, _) => (Panic, w)
      | (UB, _) => (UB, w)
      | (Block, _) => (Block, w)
      end
  end.
Definition run_query_mut (q : query) (f : nat -> nat -> V -> V) : M world (list (nat * vtree V)) := fun w =>
  match query_open w q [] with
  | (Ret J, _) => drive (S (qi_fuel J w (qi_init J))) J f (qi_init J) w
  | (Panic, _) => (Panic, w)
  | (UB, _) => (UB, w)
  | (Block, _) => (Block, w)
  end.

(** * Using an iterator by hand *)

(** Values change, nothing else: component [t] of entity [id] becomes
    [g t id old]. *)
Definition rewrite_set (g : nat -> V -> V) (s : sset V) : sset V :=
  SS (indices s) (entities s)
     (imap (fun i v => match entities s !! i with Some e => g e v | None => v end) (sdata s)).
Definition rewrite_values (g : nat -> nat -> V -> V) (w : world) : world :=
  set_comps (map_imap (fun t st => Some (St (st_ty st) (rewrite_set (g t) (st_set st)))) (w_comps w)) w.

(** Reading an optional item; a dead location is reported as UB. *)
Definition read_item (w : world) (oi : option item) : outcome (option (vtree V)) :=
  match oi with
  | None => Ret None
  | Some it => match deref w it with Some v => Ret (Some v) | None => UB end
  end.

(** One call: [Iterator::next], [QueryIterator::next_with_id],
    [QueryIterator::from_id], [Iterator::size_hint] (src/query/mod.rs:76-81). *)
Definition run_call (J : qiter) (c : qcall V) : M (world * qi_st J) (qans V) := fun '(w, st) =>
  match c with
  | CNext =>
      match qi_next J w st with
      | (Ret oi, st') =>
          match read_item w oi with
          | Ret v => (Ret (AItem v), (w, st'))
          | _ => (UB, (w, st'))
          end
      | (Panic, st') => (Panic, (w, st'))
      | (UB, st') => (UB, (w, st'))
      | (Block, st') => (Block, (w, st'))
      end
  | CNextId =>
      match qi_next_id J w st with
      | (Ret None, st') => (Ret (AIdItem None), (w, st'))
      | (Ret (Some (id, it)), st') =>
          match deref w it with
          | Some v => (Ret (AIdItem (Some (id, v))), (w, st'))
          | None => (UB, (w, st'))
          end
      | (Panic, st') => (Panic, (w, st'))
      | (UB, st') => (UB, (w, st'))
      | (Block, st') => (Block, (w, st'))
      end
  | CFromId id =>
      match qi_from_id J w id st with
      | (Ret oi, st') =>
          match read_item w oi with
          | Ret v => (Ret (AItem v), (w, st'))
          | _ => (UB, (w, st'))
          end
      | (Panic, st') => (Panic, (w, st'))
      | (UB, st') => (UB, (w, st'))
      | (Block, st') => (Block, (w, st'))
      end
  | CHint =>
      match qi_hint J w st with
      | Ret n => (Ret (AHint n), (w, st))
      | Panic => (Panic, (w, st))
      | UB => (UB, (w, st))
      | Block => (Block, (w, st))
      end
  | CWrite g => (Ret AWrote, (rewrite_values g w, st))
  end.
Fixpoint run_calls (J : qiter) (cs : list (qcall V)) : M (world * qi_st J) (list (qans V)) :=
  match cs with
  | [] => ret []
  | c :: cs' =>
      let! a := run_call J c in
      let! l := run_calls J cs' in
      ret (a :: l)
  end.
(** [let mut it = world.query::<Q>(); it.next(); ...] *)
Definition use_query (w : world) (q : query) (cs : list (qcall V)) : outcome (list (qans V)) :=
  match query_open w q [] with
  | (Ret J, _) => (run_calls J cs (w, qi_init J)).1
  | (Panic, _) => Panic
  | (UB, _) => UB
  | (Block, _) => Block
  end.

End query.
Arguments qiter : clear implicits.

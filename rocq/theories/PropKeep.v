(** C36, C37 in terms of the objects threads keep: [Entity] and [Entities]
    handles, storage, component and resource guards, query iterators.
    [kept_by i sched w cs] (SpecKeep.v): the objects thread [i] keeps after the
    threads [cs], sharing the world [w], ran as scheduled. *)
From stdpp Require Import prelude list gmap.
From Verif Require Import Base Api ModelSparse ModelEntity ModelGroup ModelWorld ModelQuery ModelStep ModelConc SpecConc SpecKeep
  Spec History Rules Samples ProofSparse ProofWorld ProofWf ProofTerm ProofConc ProofConc2 ProofConc3
  ProofConc4 ProofConc5 ProofConc6 ProofConc7 ProofConc8 ProofConc9 ProofConc10 ProofConc11 ProofKeep PropConc PropConc2.

Section keep.
Context {V : Type}.
Implicit Types (w : world V) (c : conf V) (cs : list (client V)) (ob : obj V).

(** A thread has the guards of the objects it keeps, *)
Theorem C36_kept_guards w cs sched c i th : run sched (start w cs) = Some c -> cf_threads c !! i = Some th ->
  all_holds (kept_by i sched w cs) ⊆+ th_holds th.
Proof.
  intros Hr Hi. destruct (cs !! i) as [cl|] eqn:Ei.
  - destruct (keep_inv w cs sched c i cl Hr Ei) as (th' & Hi' & Hp & _). rewrite Hi in Hi'. injection Hi' as <-.
    by eapply placed_holds.
  - unfold kept_by, place_of. rewrite Ei. apply submseteq_nil_l.
Qed.
(** and no others but those taken by the call it is in and those it is about
    to drop: neither calls that return nor calls that panic leave a lock
    behind. *)
Theorem C36_no_leak w cs sched c i th : run sched (start w cs) = Some c -> cf_threads c !! i = Some th ->
  lost (place_of i sched w cs) = false ->
  th_holds th ≡ₚ extra (place_of i sched w cs) ++ all_holds (kept_by i sched w cs).
Proof.
  intros Hr Hi Hl. destruct (cs !! i) as [cl|] eqn:Ei.
  - destruct (keep_inv w cs sched c i cl Hr Ei) as (th' & Hi' & Hp & _). rewrite Hi in Hi'. injection Hi' as <-.
    by eapply placed_exact.
  - unfold place_of in Hl. by rewrite Ei in Hl.
Qed.
Lemma kept_thread w cs sched c i ob g : run sched (start w cs) = Some c -> ob ∈ kept_by i sched w cs -> g ∈ obj_holds ob -> guard_of c i g.
Proof.
  intros Hr Hob Hg. destruct (cs !! i) as [cl|] eqn:Ei; [|unfold kept_by, place_of in Hob; rewrite Ei in Hob; by apply elem_of_nil in Hob].
  destruct (keep_inv w cs sched c i cl Hr Ei) as (th & Hi & Hp & _). exists th. split; [done|].
  eapply elem_of_submseteq; [|exact (placed_holds _ _ _ _ Hp)]. unfold all_holds. apply elem_of_list_In, in_concat.
  exists (obj_holds ob). split; [|by apply elem_of_list_In]. apply in_map. by apply elem_of_list_In.
Qed.
(** Objects of different threads on the same lock are both shared, *)
Theorem C36_objects_exclude w cs sched c i j ob ob' l x y : run sched (start w cs) = Some c -> i <> j ->
  ob ∈ kept_by i sched w cs -> ob' ∈ kept_by j sched w cs ->
  (l, x) ∈ obj_holds ob -> (l, y) ∈ obj_holds ob' -> x = false /\ y = false.
Proof.
  intros Hr Hij H1 H2 Hx Hy. eapply (C36_guards_exclude w cs c i j l); [by exists sched|done|by eapply kept_thread|by eapply kept_thread].
Qed.
(** and so are two objects of one thread. *)
Theorem C36_own_objects_exclude w cs sched c i m n ob ob' l x y : run sched (start w cs) = Some c -> m <> n ->
  kept_by i sched w cs !! m = Some ob -> kept_by i sched w cs !! n = Some ob' ->
  (l, x) ∈ obj_holds ob -> (l, y) ∈ obj_holds ob' -> x = false /\ y = false.
Proof.
  intros Hr Hmn Hm Hn Hx Hy. set (e := kept_by i sched w cs) in *.
  destruct (cs !! i) as [cl|] eqn:Ei; [|unfold e, kept_by, place_of in Hm; rewrite Ei in Hm; done].
  destruct (keep_inv w cs sched c i cl Hr Ei) as (th & Hi & Hp & _). apply placed_holds in Hp. fold (kept_by i sched w cs) in Hp. fold e in Hp.
  assert (exists rest, all_holds e ≡ₚ (l, x) :: (l, y) :: rest) as [rest Hrest].
  { pose proof (all_delete e m ob Hm) as E1.
    assert (ob' ∈ delete m e) as Hin.
    { apply elem_of_list_lookup. destruct (decide (n < m)) as [Hlt|Hge].
      - exists n. by rewrite lookup_delete_lt.
      - exists (n - 1). rewrite lookup_delete_ge by lia. by replace (S (n - 1)) with n by lia. }
    apply elem_of_list_lookup in Hin as [n' Hn']. pose proof (all_delete _ n' ob' Hn') as E2.
    apply elem_of_Permutation in Hx as [r1 Hx]. apply elem_of_Permutation in Hy as [r2 Hy].
    exists (r1 ++ r2 ++ all_holds (delete n' (delete m e))). rewrite E1, E2, Hx, Hy. cbn [app].
    apply perm_skip. symmetry. apply Permutation_middle. }
  apply submseteq_Permutation in Hp as [k Hk].
  eapply (C36_same_thread w cs c i th l x y (rest ++ k)); [by exists sched|done|]. by rewrite Hk, Hrest.
Qed.
(** No other thread changes what an object a thread keeps has locked. *)
Theorem C36_kept_protected w cs sched c i j c' ob l x : run sched (start w cs) = Some c -> i <> j ->
  ob ∈ kept_by i sched w cs -> (l, x) ∈ obj_holds ob -> cstep j c = Some c' -> part_eq l (cf_world c) (cf_world c').
Proof.
  intros Hr Hij Hob Hg Hc. eapply (C36_protected w cs c i j c' l x); [by exists sched|by eapply kept_thread|done|done].
Qed.

(** C37: the entity of every [Entity] handle a thread keeps exists. *)
Theorem C37_handle_alive w cs sched c i id : run sched (start w cs) = Some c -> JEntity id ∈ kept_by i sched w cs ->
  (step (Exist id) (cf_world c)).1 = Ret (OBool true).
Proof.
  intros Hr Hid. destruct (cs !! i) as [cl|] eqn:Ei; [|unfold kept_by, place_of in Hid; rewrite Ei in Hid; by apply elem_of_nil in Hid].
  destruct (keep_inv w cs sched c i cl Hr Ei) as (th & _ & _ & Hal). specialize (Hal id Hid). cbn [step].
  unfold fmapM, bind, get, lift, ret. cbn [fst snd]. by rewrite Hal.
Qed.
(** As long as a thread keeps a handle, no entity is added or removed by
    anybody. *)
Theorem C37_handle_freezes w cs sched c i sched' c' : run sched (start w cs) = Some c -> run sched' c = Some c' ->
  (forall pre post, sched' = pre ++ post -> exists ob, ob ∈ kept_by i (sched ++ pre) w cs /\ is_handle_obj ob = true) ->
  forall id, (step (Exist id) (cf_world c')).1 = (step (Exist id) (cf_world c)).1.
Proof.
  intros Hr Hr' Hk. eapply (C37_entities_kept w cs c i sched' c'); [by exists sched|done|].
  intros pre post cm E Hcm. destruct (Hk pre post E) as (ob & Hob & Hh).
  eapply (kept_thread w cs (sched ++ pre) cm i ob); [|done|by destruct ob; try done; left].
  rewrite <- run_app, Hr. exact Hcm.
Qed.
End keep.

(** * Cases *)

(** Thread 0 gets a handle of entity 1 and attaches through it, thread 1 tries
    to remove the entity meanwhile (C37_case): with the schedule below thread 0
    keeps the handle, thread 1 waits, and the entity exists. *)
Definition handles_in (e : list (obj nat)) : list nat := omap (fun ob => match ob with JEntity id => Some id | _ => None end) e.
Lemma handles_in_ok e id : id ∈ handles_in e -> JEntity id ∈ e.
Proof. unfold handles_in. rewrite elem_of_list_omap. by intros ([] & Hin & [= ->]). Qed.
Example C37_handle_alive_case : exists sched c,
  run sched (start (after plain12) [handle_user; remover12]) = Some c /\
  JEntity 1 ∈ kept_by 0 sched (after plain12) [handle_user; remover12] /\ wants c 1 LMan true /\ cstep 1 c = None /\
  (step (Exist 1) (cf_world c)).1 = Ret (OBool true).
Proof.
  set (sched := [0; 0] ++ repeat 1 4 ++ repeat 0 4 ++ repeat 1 12).
  exists sched, (at_end sched (start (after plain12) [handle_user; remover12])).
  split; [apply at_end_run; vm_compute; reflexivity|].
  split; [apply handles_in_ok; by_compute|].
  split; [apply wanting_ok; vm_compute; reflexivity|].
  split; [apply stays_ok; vm_compute; reflexivity|]. vm_compute. reflexivity.
Qed.
(** After the entity is gone, getting a handle fails and the thread keeps
    nothing.  (Entity 2 was removed before; without that [exist] would be wrong
    about entity 1: C13.) *)
Definition plain12_gone2 : list (op nat) := plain12 ++ [RemoveEntity 2 []].
Example C37_no_handle_case : exists sched c,
  run sched (start (after plain12_gone2) [handle_user; remover12]) = Some c /\
  kept_by 0 sched (after plain12_gone2) [handle_user; remover12] = [] /\ all_done c = true /\
  (step (Exist 1) (cf_world c)).1 = Ret (OBool false).
Proof.
  set (sched := repeat 1 16 ++ repeat 0 3).
  exists sched, (at_end sched (start (after plain12_gone2) [handle_user; remover12])).
  split; [apply at_end_run; vm_compute; reflexivity|].
  split; [vm_compute; reflexivity|]. split; vm_compute; reflexivity.
Qed.
(** Two threads keep shared guards on the same storage at the same time; a
    third wants it exclusively and waits; and once they are done the third
    keeps it alone. *)
Definition keeper (x : bool) : client nat := GetStore 1 x (fun _ => Use 0 (StoreCount 1) (fun _ => DropObj 0 Done)).
Definition stores_in (e : list (obj nat)) : list (nat * bool) := omap (fun ob => match ob with JStore t x => Some (t, x) | _ => None end) e.
Lemma stores_in_ok e t x : (t, x) ∈ stores_in e -> JStore t x ∈ e.
Proof. unfold stores_in. rewrite elem_of_list_omap. by intros ([] & Hin & [= -> ->]). Qed.
Example C36_objects_case : exists sched c sched' c', let cs := [keeper false; keeper false; keeper true] in
  run sched (start (after plain12) cs) = Some c /\
  JStore 1 false ∈ kept_by 0 sched (after plain12) cs /\ JStore 1 false ∈ kept_by 1 sched (after plain12) cs /\
  cstep 2 c = None /\ run sched' (start (after plain12) cs) = Some c' /\ JStore 1 true ∈ kept_by 2 sched' (after plain12) cs.
Proof.
  set (s := [0; 1; 2; 0; 1]). set (s' := s ++ [0; 0; 1; 1; 2]). exists s, (at_end s (start (after plain12) [keeper false; keeper false; keeper true])).
  exists s', (at_end s' (start (after plain12) [keeper false; keeper false; keeper true])). cbv zeta.
  split; [apply at_end_run; vm_compute; reflexivity|].
  split; [apply stores_in_ok; by_compute|]. split; [apply stores_in_ok; by_compute|].
  split; [apply stays_ok; vm_compute; reflexivity|].
  split; [apply at_end_run; vm_compute; reflexivity|]. apply stores_in_ok; by_compute.
Qed.

(** Properties of components: C01-C07, C16, C17, C26.  Vocabulary as in
    PropEntity.v; [value_of h t id] (History.v) is the value the history says
    entity [id]'s component of type [t] has. *)
From stdpp Require Import prelude list gmap.
From Verif Require Import Base Api ModelSparse ModelEntity ModelGroup ModelWorld ModelQuery ModelStep
  Spec History Rules Samples ProofSparse ProofEntity ProofGroup ProofWorld ProofOps ProofOps2 ProofRemove ProofRemove2
  ProofQuery ProofQuery2 ProofQuery3 ProofQueryMut ProofMain ProofHistory PropEntity.

Lemma after_snoc {V} (ops : list (op V)) o : after (ops ++ [o]) = (step o (after ops)).2.
Proof. unfold after. by rewrite exec_app. Qed.

(** ** C01, C02 *)
Section read.
Context {V : Type}.
Implicit Types (ops : list (op V)) (t id : nat) (v : V).

(** Reading a component gives the value last attached or written, and changes
    nothing. *)
Theorem C01_read_last_written ops t id : rules ops ->
  step (ReadComp t id) (after ops) = (Ret (OVal (value_of (seen ops) t id)), after ops).
Proof.
  intros L. destruct (reached ops L) as [H A]. rewrite (ag_val _ _ A). simpl.
  by rewrite (fmapM_eq OVal _ _ _ _ (read_spec _ _ t id H)).
Qed.
(** The same through the storage guard (get, exist); [None] outside: the type is
    not registered. *)
Theorem C01_storage_get ops t id : rules ops ->
  let val := value_of (seen ops) t id in
  let reg {A} (x : A) := if decide (t ∈ types_of (seen ops)) then Some x else None in
  step (StoreGet t id) (after ops) = (Ret (OValOpt (reg val)), after ops) /\
  step (StoreExist t id) (after ops) = (Ret (OBoolOpt (reg (bool_decide (is_Some val)))), after ops).
Proof.
  intros L val reg. destruct (reached ops L) as [H A]. unfold val, reg. rewrite (ag_val _ _ A). simpl.
  pose proof (components_read_spec _ _ t H) as C. unfold via_storage, fmapM, bind, get, lift, comp.
  destruct (a_comps (aexec ops a_init) !! t) as [m|] eqn:E.
  - destruct C as (s & Es & Rs & _). rewrite Es. rewrite (get_rep _ _ _ _ Rs), (rep_exist _ _ _ _ Rs).
    rewrite !decide_True by (apply (ag_reg _ _ A); unfold registered; rewrite E; eauto). done.
  - rewrite C. rewrite !decide_False; [done|..]; rewrite (ag_reg _ _ A); unfold registered; rewrite E; by intros [? ?].
Qed.

(** Which components a call names (it answered [r]). *)
Definition names (o : op V) (r : outcome (out V)) (t id : nat) : Prop :=
  match o with
  | Attach t' id' _ | Detach t' id' | WriteComp t' id' _ | StoreGetMut t' id' _ => t = t' /\ id = id'
  | BatchAttach lo hi t' _ => t = t' /\ lo <= id < hi
  | RemoveEntity id' _ => id = id'
  | QueryMut q _ => t ∈ q_muts q /\ match r with Ret (OItems l) => id ∈ l.*1 | _ => False end
  | _ => False
  end.
(** Every component not named by a call reads the same before and after it. *)
Theorem C02_frame ops o t id : rules (ops ++ [o]) -> ~ names o (answer ops o) t id ->
  answer (ops ++ [o]) (ReadComp t id) = answer ops (ReadComp t id).
Proof.
  intros L Hn. pose proof L as [L1 _]%rules_snoc.
  unfold answer at 1 2. rewrite (C01_read_last_written _ t id L), (C01_read_last_written _ t id L1).
  cbn [fst]. do 2 f_equal. rewrite seen_snoc, value_snoc. revert Hn.
  generalize (answer ops o) as rr. intros rr Hn.
  destruct o; simpl in Hn |- *; try done.
  all: destruct rr as [[]| | |]; try done;
    repeat match goal with |- context [if ?b then _ else _] => is_var b; destruct b; [|done] end;
    rewrite ?decide_False by naive_solver; done.
Qed.
End read.

(** ** C03 *)
Section layout.
Context {V : Type}.
Implicit Types (ops : list (op V)) (t id : nat) (v : V) (w : world V).

(** What a user sees of the order of a storage: the entities in the order
    [query::<&T>().with_id()] visits them and the values in [data()], which
    correspond. *)
Definition layout ops t (es : list nat) (vs : list V) : Prop :=
  length es = length vs /\
  answer ops (StoreData t) = Ret (OData (Some vs)) /\
  answer ops (Query (QRef false t)) = Ret (OItems (zip es (VLeaf <$> vs))).

Lemma query_ref_exact w aw m t s : R w aw -> w_comps w !! t = Some (St t s) -> ss_wf s ->
  run_query w (QRef m t) = Ret (zip (entities s) (VLeaf <$> sdata s)).
Proof.
  intros H Hs W. assert (query_open w (QRef m t) [] = (Ret (iter_ref m t), [(t, m)])) as Eo.
  { cbn [query_open]. unfold has_registered. rewrite Hs. rewrite bind_assert_true by (apply bool_decide_true; eauto).
    unfold lock, bind, get, put, downcast. simpl. rewrite Hs. cbn [st_ty]. by rewrite Nat.eqb_refl. }
  unfold run_query. rewrite Eo.
  pose proof (iter_ref_ok w m t _ Hs W) as [ND Gt (Rst & R0 & Run)]. cbn [st_set] in *.
  assert (Forall2 (fun (x : nat * item) (y : nat * vtree V) =>
      y.1 = x.1 /\ (IRef m t <$> loc w t x.1) = Some x.2 /\ deref w x.2 = Some y.2)
    (ref_items m t (entities s)) (zip (entities s) (VLeaf <$> sdata s))) as F.
  { apply Forall2_same_length_lookup. split.
    + unfold ref_items. rewrite imap_length, zip_with_length, fmap_length, <- (wf_len _ W). lia.
    + intros i x y Hx Hy. unfold ref_items in Hx. rewrite list_lookup_imap in Hx.
      destruct (entities s !! i) as [e|] eqn:Ee; [|done]. injection Hx as <-.
      rewrite lookup_zip_with, Ee in Hy. simpl in Hy. rewrite list_lookup_fmap in Hy.
      destruct (sdata s !! i) as [v|] eqn:Ev; [|done]. injection Hy as <-. simpl. split; [done|].
      split.
      * unfold loc. rewrite Hs. cbn [st_set]. apply (wf_pos _ W) in Ee. by rewrite Ee.
      * unfold deref_loc. rewrite Hs. cbn [st_set]. by rewrite Ev. }
  eapply (ProofQuery3.collect_spec w (iter_ref m t) (fun id => IRef m t <$> loc w t id) _ Rst _); [|exact F|exact R0|].
  - intros st l0 H0. apply (Run w (shape_refl w) st l0 H0).
  - pose proof (Run w (shape_refl w) _ _ R0) as (_ & _ & _ & Hlen & _). lia.
Qed.
Lemma layout_exact ops t s : rules ops -> w_comps (after ops) !! t = Some (St t s) -> ss_wf s ->
  layout ops t (entities s) (sdata s).
Proof.
  intros L Hs W. destruct (reached ops L) as [H A]. split; [apply W|].
  unfold answer. simpl. unfold fmapM, bind, get, lift, via_storage, bind, get, lift, components_read. simpl.
  rewrite Hs. cbn [st_ty st_set]. rewrite Nat.eqb_refl. split; [done|].
  by rewrite (query_ref_exact _ _ false t s H Hs W).
Qed.
Lemma layout_det ops t es es' vs vs' : layout ops t es vs -> layout ops t es' vs' -> es = es' /\ vs = vs'.
Proof.
  intros (L1 & D1 & Q1) (L2 & D2 & Q2). rewrite D1 in D2. injection D2 as <-. rewrite Q1 in Q2. injection Q2 as E.
  split; [|done]. apply (f_equal (fmap fst)) in E. rewrite !fst_zip in E; [done|..]; rewrite fmap_length; lia.
Qed.
Lemma reg_storage ops t : rules ops -> t ∈ types_of (seen ops) ->
  exists s m, w_comps (after ops) !! t = Some (St t s) /\ a_comps (aexec ops a_init) !! t = Some m /\
    ss_rep s m (a_slots (aexec ops a_init) t).
Proof.
  intros L Ht. destruct (reached ops L) as [H A]. apply (ag_reg _ _ A) in Ht as [m Hm].
  pose proof (components_read_spec _ _ t H) as C. rewrite Hm in C. destruct C as (s & _ & Rs & Hs). eauto.
Qed.

(** The storage of a registered type holds exactly the entities having the
    type, each once, with their values; count, is_empty, data and the order
    of iteration agree; setting [data_mut()[i]] sets the component of the
    [i]-th entity, and out of range it panics. *)
Theorem C03_dense ops t : rules ops -> t ∈ types_of (seen ops) ->
  exists es vs, layout ops t es vs /\ NoDup es /\
    (forall id, id ∈ es <-> is_Some (value_of (seen ops) t id)) /\
    Forall2 (fun id v => value_of (seen ops) t id = Some v) es vs /\
    answer ops (StoreCount t) = Ret (ONatOpt (Some (length es))) /\
    answer ops (StoreIsEmpty t) = Ret (OBoolOpt (Some (bool_decide (es = [])))) /\
    (forall i id v, es !! i = Some id ->
       step (StoreDataSet t i v) (after ops) = step (StoreGetMut t id v) (after ops)) /\
    (forall i v, length es <= i -> step (StoreDataSet t i v) (after ops) = (Panic, after ops)).
Proof.
  intros L Ht. destruct (reg_storage ops t L Ht) as (s & m & Hs & Hm & Rs).
  destruct (reached ops L) as [H A]. pose proof (rep_wf _ _ _ Rs) as W.
  exists (entities s), (sdata s). split; [by apply layout_exact|].
  assert (forall id, value_of (seen ops) t id = m !! id) as Hv.
  { intros id. rewrite (ag_val _ _ A). unfold comp. by rewrite Hm. }
  split; [by apply wf_nodup|]. split; [intros id; rewrite Hv; by eapply rep_elem|].
  assert (components_read t (after ops) = Ret (Some s)) as Hc
    by (unfold components_read; rewrite Hs; cbn [st_ty]; by rewrite Nat.eqb_refl).
  split; [|split; [|split; [|split]]].
  - apply Forall2_same_length_lookup. split; [apply W|]. intros i e v He Hvi. rewrite Hv, <- (rep_lookup _ _ _ Rs).
    unfold ss_lookup. apply (wf_pos _ W) in He. by rewrite He.
  - unfold answer. simpl. unfold fmapM, via_storage, bind, get, lift. by rewrite Hc.
  - unfold answer. simpl. unfold fmapM, via_storage, bind, get, lift. rewrite Hc. simpl. unfold ret. simpl.
    do 3 f_equal. unfold ss_is_empty. by destruct (entities s).
  - intros i id v Hi. pose proof (proj2 (wf_pos _ W id i) Hi) as Hi'.
    assert (i < length (sdata s)) as Hlt by (rewrite <- (wf_len _ W); by eapply lookup_lt_Some).
    apply Nat.ltb_lt in Hlt.
    assert (storage_data_set t i v (after ops) = storage_get_mut t id v (after ops)) as E.
    { unfold storage_data_set, storage_get_mut. rewrite !bind_get, Hc, !bind_lift.
      rewrite (get_loc_wf _ _ W), bind_lift, Hi'. by rewrite bind_assert_true. }
    simpl step. unfold fmapM, bind. by rewrite E.
  - intros i v Hi. simpl. unfold fmapM, storage_data_set, bind, get, lift. rewrite Hc.
    assert ((i <? length (sdata s)) = false) as -> by (apply Nat.ltb_ge; rewrite <- (wf_len _ W); lia). done.
Qed.
(** and there is no storage for other types *)
Theorem C03_unregistered ops t : rules ops -> t ∉ types_of (seen ops) ->
  answer ops (StoreCount t) = Ret (ONatOpt None) /\ answer ops (StoreData t) = Ret (OData None) /\
  forall id, value_of (seen ops) t id = None.
Proof.
  intros L Ht. destruct (reached ops L) as [H A]. rewrite (ag_reg _ _ A) in Ht.
  assert (a_comps (aexec ops a_init) !! t = None) as Hm by (by apply eq_None_not_Some).
  pose proof (components_read_spec _ _ t H) as C. rewrite Hm in C. unfold answer. simpl.
  unfold fmapM, via_storage, bind, get, lift. rewrite C. split; [done|]. split; [done|].
  intros id. rewrite (ag_val _ _ A). unfold comp. by rewrite Hm.
Qed.
End layout.

(** ** C04 *)
Section detach.
Context {V : Type}.
Implicit Types (ops : list (op V)) (t id : nat) (v : V).

(** What a detach by a live entity of a registered type does, in all cases. *)
Theorem C04_detach_exact ops t id : rules ops -> id ∈ alive (seen ops) -> t ∈ types_of (seen ops) ->
  match value_of (seen ops) t id with
  | Some v =>
      answer ops (Detach t id) = Ret (OVal (Some v)) /\
      answer (ops ++ [Detach t id]) (ReadComp t id) = Ret (OVal None)
  | None =>
      step (Detach t id) (after ops) =
        (if decide (id = slots_of (seen ops) t) then Panic else Ret (OVal None), after ops)
  end.
Proof.
  intros L Hl Ht. destruct (reached ops L) as [H A]. rewrite (ag_val _ _ A), (ag_slot _ _ A).
  apply (ag_alive _ _ A) in Hl. apply (ag_reg _ _ A) in Ht. pose proof Hl as [Ha Hf]. unfold allocated in Ha.
  assert (rules (ops ++ [Detach t id])) as L' by (apply rules_snoc; split; [done|]; simpl; lia).
  assert (a_exist (aexec ops a_init) id = Ret true) as Ex.
  { unfold a_exist. rewrite decide_False by lia. by rewrite bool_decide_eq_true_2 by (by left). }
  pose proof (answer_ok ops (Detach t id) L') as O. simpl in O. rewrite Ex, decide_True in O by done.
  destruct (comp (aexec ops a_init) t id) as [v|] eqn:E.
  - split; [done|]. rewrite read_answer by done. do 2 f_equal. rewrite seen_snoc, value_snoc, O. simpl.
    by rewrite decide_True.
  - simpl. pose proof (detach_absent_spec _ _ t id H Ht E) as D. unfold detach_component.
    unfold fmapM. unfold bind at 1 2. unfold get. rewrite (exist_spec _ _ id H) by lia. rewrite Ex.
    unfold lift, bind at 1. cbn [assert ret]. unfold bind. unfold ret. rewrite D. by case_decide.
Qed.
(** C04 for all entities but one: the id one above the largest that ever got
    this type. *)
Theorem C04_detach_partial ops t id : rules ops -> id ∈ alive (seen ops) -> t ∈ types_of (seen ops) ->
  id <> slots_of (seen ops) t ->
  answer ops (Detach t id) = Ret (OVal (value_of (seen ops) t id)) /\
  answer (ops ++ [Detach t id]) (ReadComp t id) = Ret (OVal None) /\
  (value_of (seen ops) t id = None -> after (ops ++ [Detach t id]) = after ops).
Proof.
  intros L Hl Ht Hne. pose proof (C04_detach_exact ops t id L Hl Ht) as D.
  destruct (value_of (seen ops) t id) as [v|] eqn:E; [naive_solver|]. rewrite decide_False in D by done.
  unfold answer at 1. rewrite D. split; [done|].
  assert (after (ops ++ [Detach t id]) = after ops) as Ea by (by rewrite after_snoc, D).
  split; [|done]. unfold answer. rewrite Ea. rewrite (C01_read_last_written ops t id L). simpl. by rewrite E.
Qed.
End detach.
(** C04 is false: detaching a component a live entity does not have panics. *)
Theorem C04_detach_refuted : exists (ops : list (op nat)) t id,
  rules ops /\ id ∈ alive (seen ops) /\ t ∈ types_of (seen ops) /\
  value_of (seen ops) t id = None /\ answer ops (Detach t id) = Panic.
Proof.
  exists [Register 1; CreateEntity; CreateEntity; Attach 1 1 10], 1, 2.
  split; [check_rules|]. split; [by_compute|]. split; [by_compute|]. by vm_compute.
Qed.

(** ** C05 *)
Section attach.
Context {V : Type}.
Implicit Types (ops : list (op V)) (t id : nat) (v : V) (w : world V).

(** no group has the type *)
Definition ungrouped ops t : Prop := forall k a b, (k, a, b) ∈ groups_of (seen ops) -> a <> t /\ b <> t.

Lemma ungrouped_with ops t : rules ops -> ungrouped ops t -> groups_with t (w_groups (after ops)) 0 = [].
Proof.
  intros L Hu. destruct (reached ops L) as [H A].
  destruct (groups_with t (w_groups (after ops)) 0) as [|i l] eqn:E; [done|]. exfalso.
  assert (i ∈ groups_with t (w_groups (after ops)) 0) as Hi by (rewrite E; left).
  pose proof (groups_with_lt _ _ _ _ _ (R_gr _ _ H) Hi) as Hlt.
  destruct (lookup_lt_is_Some_2 _ _ Hlt) as [ag Hag].
  apply (groups_with_elem _ _ _ t i ag (R_gr _ _ H) Hag) in Hi.
  destruct (Hu (ag_kind ag) (ag_a ag) (ag_b ag)) as [Ha Hb].
  { rewrite (ag_grp _ _ A). apply elem_of_list_fmap. exists ag. split; [done|]. by eapply elem_of_list_lookup_2. }
  unfold ag_types in Hi. apply orb_true_iff in Hi as [Hi|Hi]; apply Nat.eqb_eq in Hi; done.
Qed.
Lemma attach_ungrouped w t id v s : exist id w = Ret true -> w_comps w !! t = Some (St t s) ->
  groups_with t (w_groups w) 0 = [] ->
  step (Attach t id v) w = match ss_add id v s with
    | (Ret _, s') => (Ret OUnit, set_comps (<[t := St t s']> (w_comps w)) w)
    | (Panic, s') => (Panic, set_comps (<[t := St t s']> (w_comps w)) w)
    | (UB, s') => (UB, set_comps (<[t := St t s']> (w_comps w)) w)
    | (Block, s') => (Block, set_comps (<[t := St t s']> (w_comps w)) w)
    end.
Proof.
  intros Ex Hs Hg. simpl. unfold attach_component, fmapM, bind, get, lift. rewrite Ex. cbn [assert ret].
  unfold entity_attach, bind, get. assert (has_registered t w = true) as ->.
  { unfold has_registered. rewrite Hs. apply bool_decide_true. eauto. }
  cbn [assert]. unfold ret, storage_mut. rewrite Hs. cbn [st_ty st_set]. rewrite Nat.eqb_refl.
  destruct (ss_add id v s) as [[]s']; try done. cbn [set_comps w_groups]. rewrite Hg. done.
Qed.

(** On a type in no group: attaching to an entity that has the component
    replaces its value where it is; otherwise the component comes last. *)
Theorem C05_attach_in_place ops t id v es vs : rules ops -> id ∈ alive (seen ops) -> ungrouped ops t ->
  layout ops t es vs ->
  answer ops (Attach t id v) = Ret OUnit /\
  match list_find (fun e => e = id) es with
  | Some (i, _) => layout (ops ++ [Attach t id v]) t es (<[i := v]> vs)
  | None => layout (ops ++ [Attach t id v]) t (es ++ [id]) (vs ++ [v])
  end.
Proof.
  intros L Hl Hu Hlay. destruct (reached ops L) as [H A]. apply (ag_alive _ _ A) in Hl.
  pose proof Hl as [Ha Hf]. unfold allocated in Ha.
  assert (t ∈ types_of (seen ops)) as Ht.
  { destruct (decide (t ∈ types_of (seen ops))) as [?|Hn]; [done|].
    destruct (C03_unregistered ops t L Hn) as (_ & E & _). destruct Hlay as (_ & E' & _). congruence. }
  destruct (reg_storage ops t L Ht) as (s & m & Hs & Hm & Rs). pose proof (rep_wf _ _ _ Rs) as W.
  destruct (layout_det _ _ _ _ _ _ Hlay (layout_exact ops t s L Hs W)) as [-> ->].
  assert (exist id (after ops) = Ret true) as Ex.
  { rewrite (exist_spec _ _ id H) by lia. unfold a_exist. rewrite decide_False by lia.
    by rewrite bool_decide_eq_true_2 by (by left). }
  assert (rules (ops ++ [Attach t id v])) as L' by (apply rules_snoc; split; [done|]; simpl; lia).
  pose proof (attach_ungrouped (after ops) t id v s Ex Hs (ungrouped_with ops t L Hu)) as E.
  destruct (add_spec id v s W) as (s' & Es & W' & _). rewrite Es in E.
  split; [unfold answer; by rewrite E|].
  assert (after (ops ++ [Attach t id v]) = set_comps (<[t := St t s']> (w_comps (after ops))) (after ops)) as Ea.
  { by rewrite after_snoc, E. }
  assert (layout (ops ++ [Attach t id v]) t (entities s') (sdata s')) as Lay.
  { apply layout_exact; [done| |done]. rewrite Ea. simpl. by rewrite lookup_insert. }
  destruct (list_find _ (entities s)) as [[i e]|] eqn:Ef.
  - apply list_find_Some in Ef as (Ei & -> & _). apply (wf_idx _ _ _ W) in Ei.
    unfold ss_add, bind, get, put, unwrap in Es. simpl in Es. rewrite grow_lookup, Ei in Es.
    unfold vec_set, ret in Es. replace (i + 1 - 1) with i in Es by lia.
    destruct (lookup_lt_is_Some_2 (sdata s) i) as [x Hx].
    { rewrite <- (wf_len _ W). apply (wf_idx_inv _ _ _ W) in Ei as [_ Ei]. replace (i + 1 - 1) with i in Ei by lia.
      by eapply lookup_lt_Some. }
    rewrite Hx in Es. simpl in Es. injection Es as <-. exact Lay.
  - apply list_find_None in Ef. rewrite add_unfold in Es; [injection Es as <-; exact Lay|done|].
    destruct (ss_get_index s id) as [i|] eqn:Ei; [|done]. apply (wf_pos _ W) in Ei.
    rewrite Forall_forall in Ef. exfalso. eapply Ef; [|reflexivity]. by eapply elem_of_list_lookup_2.
Qed.

(** ** C06 *)
(** On a type in no group: a batch attach to live entities without the
    component leaves exactly the world that attaching one by one leaves. *)
Theorem C06_batch_one_by_one ops lo hi t vs : rules ops -> ungrouped ops t -> t ∈ types_of (seen ops) ->
  length vs = hi - lo ->
  (forall id, lo <= id < hi -> id ∈ alive (seen ops) /\ value_of (seen ops) t id = None) ->
  answer ops (BatchAttach lo hi t vs) = Ret OUnit /\
  after (ops ++ [BatchAttach lo hi t vs]) = after (ops ++ zip_with (Attach t) (seq lo (hi - lo)) vs).
Proof.
  intros L Hu Ht Hlen Hids. destruct (reached ops L) as [H A].
  destruct (reg_storage ops t L Ht) as (s & m & Hs & Hm & Rs). pose proof (rep_wf _ _ _ Rs) as W.
  pose proof (ungrouped_with ops t L Hu) as Hg.
  assert (forall id, lo <= id < hi -> ss_get_index s id = None) as Hfr.
  { intros id Hid. destruct (Hids id Hid) as [_ Hv]. rewrite (ag_val _ _ A) in Hv. unfold comp in Hv.
    rewrite Hm in Hv. simpl in Hv. by apply (rep_None_pos _ _ _ _ Rs). }
  assert (forall id, lo <= id < hi -> exist id (after ops) = Ret true) as Hex.
  { intros id Hid. destruct (Hids id Hid) as [Hl _]. apply (ag_alive _ _ A) in Hl as [Ha Hf]. unfold allocated in Ha.
    rewrite (exist_spec _ _ id H) by lia. unfold a_exist. rewrite decide_False by lia.
    by rewrite bool_decide_eq_true_2 by (by left). }
  assert (forall es vs' w s0, ss_wf s0 -> length es = length vs' -> w_comps w !! t = Some (St t s0) ->
     groups_with t (w_groups w) 0 = [] -> (forall id, id ∈ es -> exist id w = Ret true) ->
     exists s1, add_seq es vs' s0 = (Ret tt, s1) /\
       exec (zip_with (Attach t) es vs') w = set_comps (<[t := St t s1]> (w_comps w)) w) as Hseq.
  { clear. induction es as [|e es IH]; intros [|v vs] w s0 W0 Hl Hs0 Hg0 Hex; try done.
    - exists s0. split; [done|]. simpl. rewrite insert_id by done. by destruct w.
    - cbn [zip_with exec add_seq]. destruct (add_spec e v s0 W0) as (s1 & E1 & W1 & _).
      pose proof (attach_ungrouped w t e v s0 (Hex e (elem_of_list_here _ _)) Hs0 Hg0) as E. rewrite E1 in E.
      rewrite E. cbn [snd].
      destruct (IH vs (set_comps (<[t := St t s1]> (w_comps w)) w) s1 W1) as (s2 & E2 & X2).
      + by injection Hl.
      + simpl. by rewrite lookup_insert.
      + done.
      + intros id Hid. apply (Hex id). by right.
      + exists s2. split; [unfold bind; by rewrite E1|]. rewrite X2. simpl. rewrite insert_insert. done. }
  destruct (Hseq (seq lo (hi - lo)) vs (after ops) s W) as (s1 & E1 & X1).
  - by rewrite seq_length.
  - done.
  - done.
  - intros id Hid. apply elem_of_seq in Hid. apply Hex. lia.
  - rewrite <- add_batch_seq in E1; [|done|by rewrite seq_length|apply NoDup_seq|].
    2:{ intros e He. apply elem_of_seq in He. apply Hfr. lia. }
    assert (step (BatchAttach lo hi t vs) (after ops) =
      (Ret OUnit, set_comps (<[t := St t s1]> (w_comps (after ops))) (after ops))) as E.
    { simpl. unfold fmapM, entities_attach, bind. rewrite (proj2 (Nat.eqb_eq _ _) Hlen). cbn [assert ret].
      unfold storage_mut. unfold ret. rewrite Hs. cbn [st_ty st_set]. rewrite Nat.eqb_refl. by rewrite E1. }
    split; [unfold answer; by rewrite E|]. rewrite after_snoc, E. unfold after in *. rewrite exec_app. by rewrite X1.
Qed.
(** It panics, changing nothing, if the number of values is wrong or the type
    is not registered; and otherwise it succeeds (whether or not there are
    groups). *)
Theorem C06_batch_answer ops lo hi t vs : rules ops ->
  (t ∉ types_of (seen ops) \/ length vs <> hi - lo ->
    step (BatchAttach lo hi t vs) (after ops) = (Panic, after ops)) /\
  (t ∈ types_of (seen ops) -> length vs = hi - lo -> answer ops (BatchAttach lo hi t vs) = Ret OUnit).
Proof.
  intros L. destruct (reached ops L) as [H A]. rewrite (ag_reg _ _ A). split.
  - intros Hn. simpl. rewrite (fmapM_eq (fun _ => OUnit) _ (after ops) Panic (after ops)); [done|].
    eapply batch_panic_spec; [done|]. tauto.
  - intros Hr Hlen. destruct (reg_storage ops t L) as (s & m & Hs & _); [by apply (ag_reg _ _ A)|].
    unfold answer. simpl. unfold fmapM, entities_attach, bind. rewrite (proj2 (Nat.eqb_eq _ _) Hlen). cbn [assert ret].
    unfold storage_mut, ret. rewrite Hs. cbn [st_ty st_set]. rewrite Nat.eqb_refl.
    unfold ss_add_batch, bind, get, put, assert, ret. rewrite seq_length.
    rewrite (proj2 (Nat.eqb_eq (hi - lo) (length vs))) by done. done.
Qed.

(** ** C07 *)
(** Attaching a batch twice does not overwrite: for every non-empty batch the
    storage ends up with two slots per entity. *)
Theorem C07_batch_twice_refuted (t n : nat) (vs ws : list V) : length vs = n -> length ws = n -> 0 < n ->
  let ops := [Register t; CreateEntities n; BatchAttach 1 (1 + n) t vs; BatchAttach 1 (1 + n) t ws] in
  (forall o r, (o, r) ∈ seen ops -> exists x, r = Ret x) /\
  size (alive (seen ops)) = n /\
  answer ops (StoreCount t) = Ret (ONatOpt (Some (n + n))) /\
  answer ops (StoreData t) = Ret (OData (Some (vs ++ ws))).
Proof.
  intros Hv Hw Hn ops.
  set (pre := [Register t; CreateEntities n; BatchAttach 1 (1 + n) t vs] : list (op V)).
  assert (anext a_init (Register t) = a_set_comps (<[t := ∅]> ∅) a_init :> aworld V) as R1.
  { simpl. rewrite decide_False; [done|]. unfold registered. simpl. rewrite lookup_empty. by intros [? ?]. }
  assert (rules pre) as L.
  { unfold pre, rules. cbn [legal_all]. rewrite R1. simpl. split; [done|]. split; [done|]. split; [|done]. split; [lia|].
    split; [simpl; lia|]. intros id Hid. unfold comp. simpl. by rewrite lookup_insert. }
  assert (rules (take 2 pre)) as L2.
  { unfold rules in *. rewrite <- (take_drop 2 pre) in L. by apply legal_all_app in L as [? _]. }
  assert (registered (aexec (take 2 pre) a_init) t) as Hr2.
  { unfold pre. cbn [take aexec]. rewrite R1. unfold registered. simpl. rewrite lookup_insert. eauto. }
  assert (t ∈ types_of (seen (take 2 pre))) as Ht2.
  { destruct (reached _ L2) as [_ A]. by apply (ag_reg _ _ A). }
  destruct (C06_batch_answer (take 2 pre) 1 (1 + n) t vs L2) as [_ P2]. specialize (P2 Ht2 ltac:(lia)).
  assert (pre = take 2 pre ++ [BatchAttach 1 (1 + n) t vs]) as Epre by done.
  assert (t ∈ types_of (seen pre)) as Ht.
  { rewrite Epre, seen_snoc. unfold types_of. rewrite foldl_app. exact Ht2. }
  destruct (C06_batch_answer pre 1 (1 + n) t ws L) as [_ P3]. specialize (P3 Ht ltac:(lia)).
  assert (ops = pre ++ [BatchAttach 1 (1 + n) t ws]) as Eops by done.
  assert (seen ops = [(Register t, Ret OUnit); (CreateEntities n, Ret (ORange 1 (1 + n)));
    (BatchAttach 1 (1 + n) t vs, Ret OUnit); (BatchAttach 1 (1 + n) t ws, Ret OUnit)]) as Es.
  { rewrite Eops, seen_snoc, P3. rewrite Epre, seen_snoc, P2.
    unfold seen. simpl. unfold has_registered. simpl. done. }
  split; [|split].
  - intros o r. rewrite Es. rewrite !elem_of_cons, elem_of_nil. naive_solver.
  - assert (alive (seen ops) = list_to_set (seq 1 n)) as ->.
    { rewrite Es. unfold alive. simpl. rewrite Nat.sub_0_r. set_solver. }
    rewrite size_list_to_set by apply NoDup_seq. apply seq_length.
  - (* the storage *)
    assert (forall w s l, length l = n -> w_comps w !! t = Some (St t s) ->
      exists ind, (step (BatchAttach 1 (1 + n) t l) w).2 =
        set_comps (<[t := St t (SS ind (entities s ++ seq 1 n) (sdata s ++ l))]> (w_comps w)) w) as B.
    { intros w s l Hl Hs. cbn [step]. unfold fmapM, entities_attach, bind. replace (1 + n - 1) with n by lia.
      rewrite (proj2 (Nat.eqb_eq _ _) Hl). cbn [assert ret].
      unfold storage_mut, ret. rewrite Hs. cbn [st_ty st_set]. rewrite Nat.eqb_refl.
      unfold ss_add_batch, bind, get, put, assert, ret. rewrite seq_length.
      rewrite (proj2 (Nat.eqb_eq n (length l))) by done. simpl. eauto. }
    assert (exists ind, w_comps (after (take 2 pre)) !! t = Some (St t (SS ind [] []))) as [ind0 S0].
    { exists []. unfold after, pre. cbn [take exec]. 
      assert (step (Register t) w_new = (Ret OUnit, set_comps (<[t := St t ss_new]> ∅) w_new)) as ->.
      { cbn [step]. unfold fmapM, register, bind, get, has_registered. simpl. by rewrite lookup_empty. }
      simpl. apply lookup_insert. }
    destruct (B _ _ vs Hv S0) as [ind1 S1].
    assert (w_comps (after pre) !! t = Some (St t (SS ind1 (seq 1 n) vs))) as S1'.
    { rewrite Epre. unfold after. rewrite exec_app. cbn [exec]. unfold after in S1. rewrite S1. simpl. by rewrite lookup_insert. }
    destruct (B _ _ ws Hw S1') as [ind2 S2].
    assert (w_comps (after ops) !! t = Some (St t (SS ind2 (seq 1 n ++ seq 1 n) (vs ++ ws)))) as S2'.
    { rewrite Eops. unfold after. rewrite exec_app. cbn [exec]. unfold after in S2. rewrite S2. simpl. by rewrite lookup_insert. }
    unfold answer. simpl step. unfold fmapM, via_storage, bind, get, lift, components_read. rewrite S2'. cbn [st_ty st_set].
    rewrite Nat.eqb_refl. unfold ret, ss_len. simpl. rewrite app_length, !seq_length. done.
Qed.
End attach.

(** ** C16, C17 *)
Section remove.
Context {V : Type}.
Implicit Types (ops : list (op V)) (t id : nat) (v : V) (w : world V).

(** [ord] enumerates the component table: each registered type once *)
Definition enumerates (ord : list nat) ops : Prop :=
  NoDup ord /\ forall t, t ∈ ord <-> t ∈ types_of (seen ops).

Lemma enumerates_ord ops ord : rules ops -> enumerates ord ops ->
  ord ≡ₚ (map_to_list (a_comps (aexec ops a_init))).*1.
Proof.
  intros L [ND El]. destruct (reached ops L) as [H A]. apply NoDup_Permutation; [done|apply NoDup_fst_map_to_list|].
  intros t. rewrite El, (ag_reg _ _ A). unfold registered. rewrite elem_of_list_fmap. split.
  - intros [m Hm]. exists (t, m). split; [done|]. by apply elem_of_map_to_list.
  - intros ([t' m] & -> & Hm). apply elem_of_map_to_list in Hm. simpl. eauto.
Qed.
(** Calls that look only at entities, components and resources. *)
Definition group_blind (o : op V) : bool :=
  match o with
  | HasRegistered _ | Exist _ | ReadComp _ _ | ReadRes _ | StoreCount _ | StoreIsEmpty _ | StoreExist _ _
  | StoreGet _ _ | StoreData _ => true
  | _ => false
  end.
Lemma blind_ungroup o w : group_blind o = true -> (step o w).1 = (step o (ungroup w)).1.
Proof.
  assert (forall t, components_read t (ungroup w) = components_read t w) as Hc by done.
  assert (forall id, exist id (ungroup w) = exist id w) as He by done.
  destruct o; try done; intros _; cbn [step]; unfold fmapM, via_storage, entity_component_read, resource_read;
    unfold bind, get, lift; cbn [fst snd]; rewrite ?Hc, ?He.
  all: try (destruct (exist id w); done).
  all: try (destruct (w_res (ungroup w) !! r); done).
  all: try (destruct (components_read t w) as [[s|]| | |]; try done).
  - destruct (ss_exist s id); [|done]. destruct (ss_get_unchecked_loc s id) as [i| | |]; try done. by destruct (sdata s !! i).
  - by destruct (ss_get s id).
  - change (w_res (ungroup w)) with (w_res w). destruct (w_res w !! r) as [x|]; [|done]. by destruct (rv_ty x =? r).
Qed.
Lemma blind_ok o w aw : R (ungroup w) aw -> legal aw o -> group_blind o = true -> aout aw o (step o w).1.
Proof. intros H L B. rewrite blind_ungroup by done. by apply step_ok. Qed.

(** Removing a live entity returns; it then has no components and is not
    alive; nothing else has changed. *)
Theorem C16_remove_exact ops id ord : rules ops -> id ∈ alive (seen ops) -> enumerates ord ops ->
  let ops' := ops ++ [RemoveEntity id ord] in
  answer ops (RemoveEntity id ord) = Ret OUnit /\
  (forall t, answer ops' (ReadComp t id) = Ret (OVal None)) /\
  alive (seen ops') = alive (seen ops) ∖ {[id]} /\
  (forall j, 1 <= j -> j <> id -> answer ops' (Exist j) = answer ops (Exist j)) /\
  (forall t j, 1 <= j -> j <> id -> answer ops' (ReadComp t j) = answer ops (ReadComp t j)) /\
  (forall r, answer ops' (ReadRes r) = answer ops (ReadRes r)) /\
  types_of (seen ops') = types_of (seen ops) /\ groups_of (seen ops') = groups_of (seen ops).
Proof.
  intros L Hl He ops'.
  destruct (reached ops L) as [H A].
  pose proof (proj1 (ag_alive _ _ A id) Hl) as Hlive.
  destruct (remove_any _ _ id ord ord H Hlive (enumerates_ord _ _ L He) (enumerates_ord _ _ L He)) as (w' & E & _ & H').
  assert (step (RemoveEntity id ord) (after ops) = (Ret OUnit, w')) as Est by (cbn [step]; by rewrite (fmapM_eq _ _ _ _ _ E)).
  assert (answer ops (RemoveEntity id ord) = Ret OUnit) as Ea by (unfold answer; by rewrite Est).
  assert (after ops' = w') as Eaf by (unfold ops'; by rewrite after_snoc, Est).
  assert (seen ops' = seen ops ++ [(RemoveEntity id ord, Ret OUnit)]) as Es by (unfold ops'; by rewrite seen_snoc, Ea).
  assert (1 <= id) as Hid by (destruct Hlive as [Ha _]; unfold allocated in Ha; lia).
  assert (forall o, legal (a_set_groups [] (a_remove id (aexec ops a_init))) o -> group_blind o = true ->
    aout (a_set_groups [] (a_remove id (aexec ops a_init))) o (answer ops' o)) as Hob.
  { intros o Lo Bo. unfold answer. rewrite Eaf. by apply blind_ok. }
  split; [done|]. split; [|split; [|split; [|split; [|split; [|split]]]]].
  - intros t. rewrite (Hob (ReadComp t id)) by done. unfold comp. simpl. rewrite lookup_fmap.
    destruct (a_comps (aexec ops a_init) !! t); simpl; [|done]. by rewrite lookup_delete.
  - rewrite Es, alive_snoc. done.
  - intros j Hj Hne. rewrite (Hob (Exist j)) by done. rewrite exist_answer by done.
    unfold a_exist. simpl. case_decide; [done|]. do 2 f_equal. apply bool_decide_ext. rewrite elem_of_cons.
    destruct (a_free (aexec ops a_init)) as [|g gs]; simpl.
    + split; [intros _; left; apply not_elem_of_nil|]. intros _. left. intros [?|?%elem_of_nil]; done.
    + destruct gs; simpl; tauto.
  - intros t j Hj Hne. rewrite (Hob (ReadComp t j)) by done. rewrite (answer_ok ops (ReadComp t j)) by (by apply rules_snoc).
    unfold comp. simpl. rewrite lookup_fmap.
    destruct (a_comps (aexec ops a_init) !! t); simpl; [|done]. by rewrite lookup_delete_ne.
  - intros r. rewrite (Hob (ReadRes r)) by done. rewrite (answer_ok ops (ReadRes r)) by (by apply rules_snoc). done.
  - rewrite Es. unfold types_of. by rewrite foldl_app.
  - rewrite Es. unfold groups_of. by rewrite foldl_app.
Qed.

(** The order in which the component table is enumerated makes no difference. *)
Theorem C17_remove_order ops id ord ord' : rules ops -> id ∈ alive (seen ops) ->
  enumerates ord ops -> enumerates ord' ops ->
  step (RemoveEntity id ord) (after ops) = step (RemoveEntity id ord') (after ops).
Proof.
  intros L Hl He He'. destruct (reached ops L) as [H A]. apply (ag_alive _ _ A) in Hl.
  destruct (remove_any _ _ id ord ord' H Hl (enumerates_ord _ _ L He) (enumerates_ord _ _ L He')) as (w' & E & E' & _).
  cbn [step]. unfold fmapM, bind. by rewrite E, E'.
Qed.

(** ** C26 *)
(** make_group with registered types, two different ones unless non-owning,
    whether it is accepted or refused, in whatever order relative to other
    groups: no component and no entity changes, and each storage is at most
    reordered. *)
Theorem C26_make_group_changes_nothing ops k a b : rules ops ->
  a ∈ types_of (seen ops) -> b ∈ types_of (seen ops) -> a <> b \/ k = KNon ->
  let ops' := ops ++ [MakeGroup k a b] in
  (answer ops (MakeGroup k a b) = Ret OUnit \/ answer ops (MakeGroup k a b) = Panic) /\
  (forall t id, answer ops' (ReadComp t id) = answer ops (ReadComp t id)) /\
  (forall t, answer ops' (StoreCount t) = answer ops (StoreCount t)) /\
  (forall id, answer ops' (Exist id) = answer ops (Exist id)) /\
  answer ops' CreateEntity = answer ops CreateEntity /\
  (forall r, answer ops' (ReadRes r) = answer ops (ReadRes r)) /\
  (forall t, answer ops' (StoreData t) = answer ops (StoreData t) \/
     (t = a \/ t = b) /\ k <> KNon /\ exists vs vs', answer ops (StoreData t) = Ret (OData (Some vs)) /\
       answer ops' (StoreData t) = Ret (OData (Some vs')) /\ vs ≡ₚ vs').
Proof.
  intros L Ha Hb Hne ops'. destruct (reached ops L) as [H A].
  unfold answer, ops'. rewrite after_snoc. set (w := after ops) in *. set (aw := aexec ops a_init) in *.
  destruct (group_refused aw k a b) eqn:Er.
  { assert (step (MakeGroup k a b) w = (Panic, w)) as ->.
    { cbn [step]. unfold fmapM, bind. by rewrite (make_refused_spec _ _ _ _ _ H Er). }
    cbn [fst snd]. split; [by right|].
    do 5 (split; [done|]). intros t. by left. }
  (* the world afterwards, its groups aside, is related to the same abstract world *)
  assert (exists cs' gs', step (MakeGroup k a b) w = (Ret OUnit, set_groups gs' (set_comps cs' w)) /\
    srel cs' (a_comps aw) (a_slots aw) /\
    forall t, ag_owns (AG k a b ∅ true) t = false -> cs' !! t = w_comps w !! t) as (cs' & gs' & E & S & Fr).
  { cbn [step]. unfold group_refused in Er. apply orb_false_iff in Er as [Er1 Er2].
    unfold fmapM, make_group. unfold bind at 1. rewrite bind_get, (has_group_spec w aw k a b H), Er1, bind_assert_true by done.
    rewrite (owner_conflict_spec w aw k a b H), Er2, bind_assert_true by done. rewrite bind_put.
    set (w1 := set_groups (w_groups w ++ [new_group k a b]) w).
    assert (w_groups w1 !! length (w_groups w) = Some (new_group k a b)) as Hi.
    { simpl. rewrite lookup_app_r by lia. by rewrite Nat.sub_diag. }
    destruct (run_make w1 (a_comps aw) (a_slots aw) (length (w_groups w)) k a b) as (cs' & g' & E & P);
      [apply H|done|tauto|by apply (ag_reg _ _ A)|by apply (ag_reg _ _ A)|].
    rewrite E. eexists cs', _. split; [done|]. split; [apply P|]. apply (rp_frame _ _ _ _ _ _ _ P). }
  rewrite E. cbn [fst snd]. split; [by left|].
  assert (R (set_groups [] w) (a_set_groups [] aw)) as H0.
  { split; try apply H; simpl; [constructor|]. intros i j g h t _ Hg. by rewrite lookup_nil in Hg. }
  assert (R (set_groups [] (set_comps cs' w)) (a_set_groups [] aw)) as H1.
  { split; try apply H; simpl; [done|constructor|]. intros i j g h t _ Hg. by rewrite lookup_nil in Hg. }
  assert (forall t id, entity_component_read t id (set_groups gs' (set_comps cs' w)) =
    (Ret (comp aw t id), set_groups gs' (set_comps cs' w))) as Hrd.
  { intros t id. pose proof (read_spec _ _ t id H1) as X. change (comp (a_set_groups [] aw) t id) with (comp aw t id) in X. unfold entity_component_read in X |- *. rewrite bind_get in X |- *.
    unfold bind, lift, ret in X |- *. cbn [components_read set_groups w_comps set_comps] in X |- *.
    change (components_read t (set_groups [] (set_comps cs' w))) with (components_read t (set_groups gs' (set_comps cs' w))) in X.
    destruct (components_read t (set_groups gs' (set_comps cs' w))) as [[s|]| | |]; try done.
    - destruct (ss_exist s id); [|by injection X as <-]. destruct (ss_get_unchecked_loc s id) as [i| | |]; try done.
      destruct (sdata s !! i); [|done]. by injection X as <-.
    - by injection X as <-. }
  split; [|split; [|split; [|split; [|split]]]].
  - intros t id. cbn [step]. rewrite (fmapM_eq OVal _ _ _ _ (Hrd t id)). by rewrite (fmapM_eq OVal _ _ _ _ (read_spec _ _ t id H)).
  - intros t. pose proof (components_read_spec _ _ t H1) as C1. pose proof (components_read_spec _ _ t H) as C.
    change (components_read t (set_groups [] (set_comps cs' w))) with (components_read t (set_groups gs' (set_comps cs' w))) in C1.
    cbn [step]. unfold fmapM, via_storage, bind, get, lift. simpl in C1. destruct (a_comps aw !! t) as [m|] eqn:Hm.
    + destruct C as (s & -> & Rs & _), C1 as (s1 & -> & Rs1 & _). simpl. do 3 f_equal. rewrite (rep_len _ _ _ Rs), (rep_len _ _ _ Rs1). done.
    + by rewrite C, C1.
  - intros id. cbn [step]. unfold fmapM, bind, get, lift.
    change (exist id (set_groups gs' (set_comps cs' w))) with (exist id w). by destruct (exist id w).
  - cbn [step]. unfold fmapM, create_entity, on_em, bind, get, lift, exist. simpl. destruct (em_allocate _) as [[id| | |] e]; try done.
    simpl. by destruct (em_has e id) as [[]| | |].
  - intros r. cbn [step]. unfold fmapM, resource_read, bind, get. cbn [w_res set_groups set_comps]. destruct (w_res w !! r) as [x|]; [|done].
    by destruct (rv_ty x =? r).
  - intros t. pose proof (components_read_spec _ _ t H1) as C1. pose proof (components_read_spec _ _ t H) as C.
    change (components_read t (set_groups [] (set_comps cs' w))) with (components_read t (set_groups gs' (set_comps cs' w))) in C1.
    cbn [step]. unfold fmapM, via_storage, bind, get, lift. simpl in C1.
    destruct (ag_owns (AG k a b ∅ true) t) eqn:Eo.
    + right. assert (t = a \/ t = b) as Ht.
      { apply owns_types in Eo. unfold ag_types in Eo. apply orb_true_iff in Eo as [Eo|Eo]; apply Nat.eqb_eq in Eo; simpl in Eo; auto. }
      split; [done|]. split; [by intros ->|].
      assert (is_Some (a_comps aw !! t)) as [m Hm] by (destruct Ht as [-> | ->]; by apply (ag_reg _ _ A)).
      rewrite Hm in C, C1. destruct C as (s & -> & Rs & _), C1 as (s1 & -> & Rs1 & _). simpl.
      do 2 eexists. split; [done|]. split; [done|]. rewrite (rep_data _ _ _ Rs), (rep_data _ _ _ Rs1). done.
    + left. assert (components_read t (set_groups gs' (set_comps cs' w)) = components_read t w) as ->;
      [|by destruct (components_read t w) as [[]| | |]].
      unfold components_read. simpl. by rewrite (Fr t Eo).
Qed.
End remove.

(** ** Concrete cases that meet the hypotheses *)
Example C01_case : rules sample /\ answer sample (ReadComp 2 4) = Ret (OVal (Some 240)) /\
  answer sample (ReadComp 1 2) = Ret (OVal None) /\ answer sample (ReadComp 1 3) = Ret (OVal (Some 33)).
Proof. split; [apply sample_rules|]. by vm_compute. Qed.
Example C02_case : rules (sample ++ [RemoveEntity 4 [1; 2]]) /\
  ~ names (RemoveEntity 4 [1; 2]) (answer sample (RemoveEntity 4 [1; 2])) 2 5 /\
  answer sample (ReadComp 2 5) = Ret (OVal (Some 25)).
Proof. split; [check_rules|]. split; [simpl; lia|by vm_compute]. Qed.
Example C03_case : rules sample /\ 1 ∈ types_of (seen sample) /\ layout sample 1 [4; 5; 3] [144; 15; 33].
Proof. split; [apply sample_rules|]. split; [by_compute|]. split; [done|]. by vm_compute. Qed.
Example C04_case : rules sample /\ 4 ∈ alive (seen sample) /\ 2 ∈ alive (seen sample) /\ 1 ∈ types_of (seen sample) /\
  4 <> slots_of (seen sample) 1 /\ value_of (seen sample) 1 4 = Some 144 /\
  2 <> slots_of (seen sample) 1 /\ value_of (seen sample) 1 2 = None.
Proof. split; [apply sample_rules|]. do 3 (split; [by_compute|]). by vm_compute. Qed.
Example C05_case : let ops := take 9 sample in
  rules ops /\ 2 ∈ alive (seen ops) /\ 4 ∈ alive (seen ops) /\ ungrouped ops 1 /\
  layout ops 1 [1; 2; 3; 5] [11; 12; 13; 15].
Proof.
  split; [check_rules|]. split; [by_compute|]. split; [by_compute|]. split; [|split; [done|by vm_compute]].
  intros k a b. vm_compute (groups_of _). by intros ?%elem_of_nil.
Qed.
Example C06_case : let ops := take 5 sample ++ [CreateEntities 3] in
  rules ops /\ ungrouped ops 1 /\ 1 ∈ types_of (seen ops) /\
  (forall id, 5 <= id < 8 -> id ∈ alive (seen ops) /\ value_of (seen ops) 1 id = None).
Proof.
  split; [check_rules|]. split; [|split; [by_compute|]].
  - intros k a b. vm_compute (groups_of _). by intros ?%elem_of_nil.
  - intros id Hid. assert (id = 5 \/ id = 6 \/ id = 7) as [->|[->| ->]] by lia; (split; [by_compute|by vm_compute]).
Qed.
Lemma enumerates_sample ord : NoDup ord -> (forall t, t ∈ ord <-> t = 1 \/ t = 2) -> enumerates ord sample.
Proof.
  intros ND H. split; [done|]. intros t. rewrite H, <- elem_of_elements.
  vm_compute (elements _). rewrite !elem_of_cons, elem_of_nil. tauto.
Qed.
Example C16_C17_case : rules sample /\ 4 ∈ alive (seen sample) /\ enumerates [1; 2] sample /\ enumerates [2; 1] sample /\
  value_of (seen sample) 1 4 = Some 144 /\ value_of (seen sample) 2 4 = Some 240.
Proof.
  split; [apply sample_rules|]. split; [by_compute|].
  split; [|split]; [apply enumerates_sample; [by_compute|set_solver]..|by vm_compute].
Qed.
Example C26_case : let ops := take 9 sample in rules ops /\ 1 ∈ types_of (seen ops) /\ 2 ∈ types_of (seen ops) /\
  answer ops (StoreData 1) = Ret (OData (Some [11; 12; 13; 15])) /\
  answer (ops ++ [MakeGroup KFull 1 2]) (StoreData 1) = Ret (OData (Some [12; 15; 13; 11])).
Proof. split; [check_rules|]. do 2 (split; [by_compute|]). by vm_compute. Qed.

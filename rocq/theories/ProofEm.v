(** Which calls leave the entity manager alone; ids handed out by calls that
    remove nothing. *)
From stdpp Require Import prelude list gmap.
From Verif Require Import Base Api ModelSparse ModelEntity ModelGroup ModelWorld ModelQuery ModelStep Spec History ProofEntity.

Section em.
Context {V : Type}.
Implicit Types (w : world V).
Definition keeps {A} (m : M (world V) A) : Prop := forall w, w_em (m w).2 = w_em w.
Lemma keeps_bind {A B} (m : M (world V) A) (k : A -> M (world V) B) : keeps m -> (forall a, keeps (k a)) -> keeps (bind m k).
Proof. intros H1 H2 w. unfold bind. specialize (H1 w). destruct (m w) as [[a| | |] w1]; simpl in *; try done. by rewrite (H2 a w1). Qed.
Lemma keeps_get : keeps get.
Proof. done. Qed.
Lemma keeps_ret {A} (a : A) : keeps (ret a).
Proof. done. Qed.
Lemma keeps_lift {A} (o : outcome A) : keeps (lift o).
Proof. intros w. by destruct o. Qed.
Lemma keeps_assert b : keeps (assert b).
Proof. intros w. by destruct b. Qed.
Lemma keeps_storage {A} t (m : M (sset V) A) : keeps (storage_mut t m).
Proof. intros w. unfold storage_mut. destruct (w_comps w !! t); [|done]. destruct (_ =? _); [|done]. by destruct (m _). Qed.
Lemma keeps_dyn {A} t (m : M (sset V) A) : keeps (dyn_mut t m).
Proof. intros w. unfold dyn_mut. destruct (w_comps w !! t); [|done]. by destruct (m _). Qed.
Lemma keeps_group i ff fp fn : keeps (run_group_at (V := V) i ff fp fn).
Proof.
  intros w. unfold run_group_at. destruct (w_groups w !! i) as [[d|d|d]|]; [| | |done].
  - destruct (w_comps w !! _); [|done]. destruct (_ =? _); [done|]. destruct (w_comps w !! _); [|done]. by destruct (ff _).
  - destruct (w_comps w !! _); [|done]. destruct (_ =? _); [done|]. destruct (w_comps w !! _); [|done]. by destruct (fp _).
  - destruct (w_comps w !! _); [|done]. destruct (w_comps w !! _); [|done]. by destruct (fn _).
Qed.
Lemma keeps_each {A} (l : list A) (f : A -> M (world V) unit) : (forall a, keeps (f a)) -> keeps (for_each l f).
Proof. intros H. induction l as [|a l IH]; [done|]. simpl. by apply keeps_bind. Qed.
Lemma keeps_poke w t i g : w_em (poke w t i g) = w_em w.
Proof. unfold poke. destruct (w_comps w !! t); [|done]. by destruct (_ !! i). Qed.
Lemma keeps_item f id it w : w_em (poke_item f id it w) = w_em w.
Proof. revert w. induction it; intros w; simpl; rewrite ?IHit5, ?IHit4, ?IHit3, ?IHit2, ?IHit1; try done. destruct m; [apply keeps_poke|done]. Qed.
Lemma keeps_drive n J f st : keeps (drive (V := V) n J f st).
Proof.
  revert st. induction n as [|n IH]; intros st w; [done|]. cbn [drive]. destruct (qi_next_id J w st) as [[[[id it]|]| | |] st']; try done.
  destruct (deref w it); [|done]. specialize (IH st' (poke_item f id it w)). destruct (drive n J f st' _) as [[] w']; cbn [snd] in *; by rewrite IH, keeps_item.
Qed.
Lemma keeps_match {A B} (o : option A) (m : A -> M (world V) B) m' : (forall a, keeps (m a)) -> keeps m' -> keeps (match o with Some a => m a | None => m' end).
Proof. by destruct o. Qed.
Lemma keeps_if {B} (b : bool) (m m' : M (world V) B) : keeps m -> keeps m' -> keeps (if b then m else m').
Proof. by destruct b. Qed.
Ltac keeps := repeat first
  [apply keeps_bind; [|intros ?] | apply keeps_get | apply keeps_ret | apply keeps_lift | apply keeps_assert | apply keeps_storage
  | apply keeps_group | apply keeps_each; intros ? | apply keeps_match; [intros ?|] | apply keeps_if].
(** the calls that leave the manager alone *)
Definition idle_call (o : op V) : Prop :=
  match o with CreateEntity | CreateEntities _ | RemoveEntity _ _ => False | _ => True end.
Lemma keeps_register t : keeps (register (V := V) t).
Proof. intros w. unfold register, bind, get, put, assert. by destruct (negb _). Qed.
Lemma keeps_make k a b : keeps (make_group (V := V) k a b).
Proof.
  intros w. unfold make_group, bind, get, put, assert, panic, ret. destruct (negb _); [|done]. destruct (negb _); [|done]. by rewrite keeps_group.
Qed.
Lemma keeps_write_res r v : keeps (resource_write (V := V) r v).
Proof. intros w. unfold resource_write, bind, get, put, ret, ub. destruct (w_res w !! r); [|done]. by destruct (_ =? _). Qed.
Lemma keeps_query_mut q f : keeps (run_query_mut (V := V) q f).
Proof. intros w. unfold run_query_mut. destruct (query_open w q []) as [[J| | |] ?]; try done. apply keeps_drive. Qed.
Lemma step_em o w : idle_call o -> w_em (step o w).2 = w_em w.
Proof.
  intros Ho. revert w. destruct o; try done; cbn [step]; unfold fmapM;
    try (apply keeps_bind; [first [apply keeps_register | apply keeps_make | apply keeps_write_res | apply keeps_query_mut]|intros ?; apply keeps_ret]); keeps.
  all: unfold attach_component, entity_attach, detach_component, entity_detach, entities_attach, entity_component_read, entity_component_write,
    storage_get_mut, storage_data_set, resource_read, register_resource, via_storage; keeps; done.
Qed.

(** ** Ids *)
Lemma create_new e n free w : em_rel (w_em w) n free -> w_em w = e ->
  exists id w', step CreateEntity w = (Ret (OId id), w') /\ id ∉ ents e /\ id <> 0 /\ (exists n' free', em_rel (w_em w') n' free') /\ ents (w_em w') = ents e ++ [id].
Proof.
  intros H <-. destruct (em_allocate_spec _ _ _ H) as (e' & E & H'). set (id := match free with f :: _ => f | [] => S n end) in *.
  assert (ents e' = ents (w_em w) ++ [id]) as Hen.
  { revert E. unfold em_allocate, bind, get, put, unwrap, ret; simpl. destruct (flags (w_em w) !! 0) as [[]|]; simpl; [| |done].
    - destruct (flags (w_em w) !! next); simpl; [|done]. destruct (vec_set _ next _); simpl; [|done]. destruct (vec_set _ 0 _); simpl; [|done]. by intros [= -> <-].
    - by intros [= -> <-]. }
  assert (id ∉ ents (w_em w)) as Hni.
  { pose proof (er_nodup _ _ _ H') as Hn. rewrite Hen in Hn. apply NoDup_app in Hn as (Hn & _). apply NoDup_app in Hn as (_ & Hd & _). intros Hin. apply (Hd id Hin). left. }
  assert (id ∈ ents e') as Hin by (rewrite Hen; apply elem_of_app; right; left).
  assert (1 <= id <= match free with _ :: _ => n | [] => S n end) as Hb by (apply (er_elem _ _ _ id H'); by left).
  exists id, (set_em e' w). split.
  { cbn [step]. unfold fmapM, create_entity, bind, on_em, get, lift, exist. rewrite E. simpl.
    rewrite (em_has_spec _ _ _ id H') by lia. rewrite decide_False by lia. rewrite bool_decide_true; [done|]. left. intros Hf. by eapply er_disj. }
  split; [done|]. split; [lia|]. split; [by eexists _, _|done].
Qed.
Lemma creates_new k w n free : em_rel (w_em w) n free ->
  exists w' free', step (CreateEntities k) w = (Ret (ORange (S n) (S n + k)), w') /\ em_rel (w_em w') (n + k) free' /\ ents (w_em w') = ents (w_em w) ++ seq (S n) k.
Proof.
  intros H. destruct (em_allocate_n_spec _ _ _ k H) as (e' & E & H'). exists (set_em e' w), free. split; [|split; [done|]].
  - cbn [step]. unfold fmapM, create_entities, bind, on_em, ret. rewrite E. done.
  - assert (ents e' = ents (w_em w) ++ seq (length (flags (w_em w))) k) as E'; [|simpl; by rewrite E', (er_len _ _ _ H)].
    revert E. unfold em_allocate_n, bind, get, put, ret. intros E. by simplify_eq.
Qed.
Definition removes_nothing (o : op V) : Prop := match o with RemoveEntity _ _ => False | _ => True end.
(** what a creating call is to answer *)
Definition created_ok (ev : op V * outcome (out V)) : Prop :=
  match ev with
  | (CreateEntity, r) => exists id, r = Ret (OId id) /\ id <> 0
  | (CreateEntities n, r) => exists lo, r = Ret (ORange lo (lo + n)) /\ lo <> 0
  | _ => True
  end.
Lemma seq_ids ops : forall w n free, em_rel (w_em w) n free -> Forall removes_nothing ops ->
  (exists n' free', em_rel (w_em (exec ops w)) n' free') /\
  ents (w_em (exec ops w)) = ents (w_em w) ++ (trace ops w ≫= handed_ev) /\ Forall created_ok (trace ops w).
Proof.
  induction ops as [|o ops IH]; intros w n free H HF; simpl.
  - rewrite app_nil_r. split; [by eexists _, _|]. done.
  - apply Forall_cons in HF as [Ho HF].
    assert ((exists n' free', em_rel (w_em (step o w).2) n' free') /\ ents (w_em (step o w).2) = ents (w_em w) ++ handed_ev (o, (step o w).1) /\ created_ok (o, (step o w).1)) as ((n1 & f1 & H1) & H2 & H3).
    { assert (idle_call o -> (forall r, handed_ev (V := V) (o, r) = []) -> (forall r, created_ok (o, r)) ->
        (exists n' free', em_rel (w_em (step o w).2) n' free') /\ ents (w_em (step o w).2) = ents (w_em w) ++ handed_ev (o, (step o w).1) /\ created_ok (o, (step o w).1)) as Hi.
      { intros Hi Hh Hc. rewrite (step_em o w Hi), Hh, app_nil_r. split; [by eexists _, _|]. done. }
      destruct o; try (by apply Hi); try done.
      - destruct (create_new _ _ _ w H eq_refl) as (id & w' & E & Hn & H0 & Hr & He). rewrite E. simpl. split; [done|]. split; [done|]. by exists id.
      - destruct (creates_new n0 w _ _ H) as (w' & f' & E & Hr & He). rewrite E. cbn [fst snd]. split; [by eexists _, _|]. split.
        + rewrite He. f_equal. cbn [handed_ev]. f_equal. lia.
        + exists (S n). done. }
    destruct (IH _ _ _ H1 HF) as (H4 & H5 & H6). split; [done|]. split; [|by constructor]. by rewrite H5, H2, <- app_assoc.
Qed.
End em.

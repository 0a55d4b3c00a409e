(** Properties that hold in every history, with or without the rules of use:
    C19 (no type confusion), C20 (registration), C35 (resources), and which
    groups there are (used by C27). *)
From stdpp Require Import prelude list gmap.
From Verif Require Import Base Api ModelSparse ModelEntity ModelGroup ModelWorld ModelQuery ModelStep
  Spec History Rules Samples ProofSparse ProofWorld ProofHistory PropEntity PropComp.

Section keeps.
Context {V : Type}.
Implicit Types (w : world V) (ops : list (op V)).

(** kind and types of a group *)
Definition g_static (g : group) : gkind * nat * nat :=
  match g with
  | GFull d => (KFull, fd_a d, fd_b d)
  | GPart d => (KPart, pd_a d, pd_b d)
  | GNon d => (KNon, nd_a d, nd_b d)
  end.

(** What no call but register, make_group and the resource calls changes:
    which storages there are and their types, the groups' kinds and types,
    and the resources. *)
Record keeps w w' : Prop := {
  k_tags : forall t, st_ty <$> w_comps w' !! t = st_ty <$> w_comps w !! t;
  k_groups : g_static <$> w_groups w' = g_static <$> w_groups w;
  k_res : w_res w' = w_res w
}.
Lemma keeps_refl w : keeps w w.
Proof. done. Qed.
Lemma keeps_trans w w1 w2 : keeps w w1 -> keeps w1 w2 -> keeps w w2.
Proof.
  intros [A1 B1 C1] [A2 B2 C2]. split; [|congruence..]. intros t. by rewrite A2.
Qed.
Definition pres {A} (m : M (world V) A) : Prop := forall w, keeps w (m w).2.

Lemma pres_bind {A B} (m : M (world V) A) (k : A -> M (world V) B) :
  pres m -> (forall a, pres (k a)) -> pres (bind m k).
Proof.
  intros Hm Hk w. unfold bind. specialize (Hm w). destruct (m w) as [[a| | |] w1]; try done.
  eapply keeps_trans; [exact Hm|apply Hk].
Qed.
Lemma pres_ret {A} (a : A) : pres (ret a).
Proof. intros w. apply keeps_refl. Qed.
Lemma pres_get : pres get.
Proof. intros w. apply keeps_refl. Qed.
Lemma pres_lift {A} (o : outcome A) : pres (lift o).
Proof. intros w. apply keeps_refl. Qed.
Lemma pres_assert b : pres (assert b).
Proof. by destruct b. Qed.
Lemma pres_ub {A} : pres (@ub _ A).
Proof. done. Qed.
Lemma pres_panic {A} : pres (@panic _ A).
Proof. done. Qed.
Lemma pres_for_each {A} (l : list A) f : (forall x, pres (f x)) -> pres (for_each l f).
Proof. intros H. induction l as [|x l IH]; [apply pres_ret|]. apply pres_bind; [apply H|done]. Qed.
Lemma pres_fmapM {A B} (f : A -> B) (m : M (world V) A) : pres m -> pres (fmapM f m).
Proof. intros H. apply pres_bind; [done|]. intros a. apply pres_ret. Qed.

Lemma keeps_comp w t st s : w_comps w !! t = Some st ->
  keeps w (set_comps (<[t := St (st_ty st) s]> (w_comps w)) w).
Proof.
  intros Hst. split; [|done|done]. intros u. simpl. destruct (decide (u = t)) as [->|].
  - by rewrite lookup_insert, Hst.
  - by rewrite lookup_insert_ne.
Qed.
Lemma pres_storage_mut {A} t (m : M (sset V) A) : pres (storage_mut t m).
Proof.
  intros w. unfold storage_mut. destruct (w_comps w !! t) as [st|] eqn:Hst; [|done].
  destruct (st_ty st =? t); [|done]. destruct (m (st_set st)) as [o s']. by apply keeps_comp.
Qed.
Lemma pres_dyn_mut {A} t (m : M (sset V) A) : pres (dyn_mut t m).
Proof.
  intros w. unfold dyn_mut. destruct (w_comps w !! t) as [st|] eqn:Hst; [|done].
  destruct (m (st_set st)) as [o s']. by apply keeps_comp.
Qed.
Lemma pres_on_em {A} (m : M em A) : pres (on_em m).
Proof. intros w. unfold on_em. by destruct (m (w_em w)). Qed.

(** group methods do not change the types of the group *)
Definition gpres {D} (ta tb : D -> nat) (m : M (gctx V D) unit) : Prop := forall c,
  ta (gc_d (m c).2) = ta (gc_d c) /\ tb (gc_d (m c).2) = tb (gc_d c).
Lemma keeps_group w i g g' : w_groups w !! i = Some g -> g_static g' = g_static g ->
  keeps w (set_groups (<[i := g']> (w_groups w)) w).
Proof.
  intros Hi Hs. split; [done| |done]. simpl. apply list_eq. intros j. rewrite !list_lookup_fmap.
  destruct (decide (i = j)) as [<-|].
  - rewrite list_lookup_insert by (by eapply lookup_lt_Some). rewrite Hi. simpl. by rewrite Hs.
  - by rewrite list_lookup_insert_ne.
Qed.
Lemma pres_run_group i ff fp fn : gpres fd_a fd_b ff -> gpres pd_a pd_b fp -> gpres nd_a nd_b fn ->
  pres (run_group_at i ff fp fn).
Proof.
  intros Hf Hp Hn w. unfold run_group_at. destruct (w_groups w !! i) as [[d|d|d]|] eqn:Hi; [..|done].
  - destruct (w_comps w !! fd_a d) as [sa|] eqn:Ha; [|done].
    destruct (fd_a d =? fd_b d) eqn:Hab; [done|]. apply Nat.eqb_neq in Hab.
    destruct (w_comps w !! fd_b d) as [sb|] eqn:Hb; [|done].
    specialize (Hf (GC d (st_set sa) (st_set sb))). destruct (ff _) as [o c]. simpl in Hf |- *. destruct Hf as [F1 F2].
    set (w1 := set_comps (<[fd_a d := St (st_ty sa) (gc_a c)]> (w_comps w)) w).
    assert (keeps w w1) as K1 by (by apply keeps_comp).
    assert (keeps w1 (set_comps (<[fd_b d := St (st_ty sb) (gc_b c)]> (w_comps w1)) w1)) as K2.
    { apply keeps_comp. simpl. by rewrite lookup_insert_ne. }
    eapply keeps_trans; [exact K1|]. eapply keeps_trans; [exact K2|].
    apply (keeps_group (set_comps (<[fd_b d := St (st_ty sb) (gc_b c)]> (w_comps w1)) w1) i (GFull d)); [exact Hi|].
    simpl. by rewrite F1, F2.
  - destruct (w_comps w !! pd_a d) as [sa|] eqn:Ha; [|done].
    destruct (pd_a d =? pd_b d) eqn:Hab; [done|].
    destruct (w_comps w !! pd_b d) as [sb|] eqn:Hb; [|done].
    specialize (Hp (GC d (st_set sa) (st_set sb))). destruct (fp _) as [o c]. simpl in Hp |- *. destruct Hp as [F1 F2].
    set (w1 := set_comps (<[pd_a d := St (st_ty sa) (gc_a c)]> (w_comps w)) w).
    assert (keeps w w1) as K1 by (by apply keeps_comp).
    eapply keeps_trans; [exact K1|]. apply (keeps_group w1 i (GPart d)); [exact Hi|]. simpl. by rewrite F1, F2.
  - destruct (w_comps w !! nd_a d) as [sa|] eqn:Ha; [|done].
    destruct (w_comps w !! nd_b d) as [sb|] eqn:Hb; [|done].
    specialize (Hn (GC d (st_set sa) (st_set sb))). destruct (fn _) as [o c]. simpl in Hn |- *. destruct Hn as [F1 F2].
    apply (keeps_group w i (GNon d)); [exact Hi|]. simpl. by rewrite F1, F2.
Qed.

Section gpres.
Context {D : Type} (ta tb : D -> nat).
Lemma gpres_bind {A} (m : M (gctx V D) A) (k : A -> M (gctx V D) unit) :
  (forall c, ta (gc_d (m c).2) = ta (gc_d c) /\ tb (gc_d (m c).2) = tb (gc_d c)) ->
  (forall a, gpres ta tb (k a)) -> gpres ta tb (bind m k).
Proof.
  intros Hm Hk c. unfold bind. specialize (Hm c). destruct (m c) as [[a| | |] c1]; try done.
  simpl in Hm. destruct (Hk a c1), Hm. split; congruence.
Qed.
Lemma gpres_ret : gpres ta tb (ret tt).
Proof. done. Qed.
Lemma gpres_for_range n m f : (forall i, gpres ta tb (f i)) -> gpres ta tb (for_range n m f).
Proof. intros H. revert n. induction m; intros n; [done|]. cbn [for_range]. apply gpres_bind; [apply H|]. intros _. apply IHm. Qed.
Lemma gpres_on_a {A} (m : M (sset V) A) c : ta (gc_d (on_a m c).2) = ta (gc_d c) /\ tb (gc_d (on_a m c).2) = tb (gc_d c).
Proof. unfold on_a. by destruct (m (gc_a c)). Qed.
Lemma gpres_on_b {A} (m : M (sset V) A) c : ta (gc_d (on_b m c).2) = ta (gc_d c) /\ tb (gc_d (on_b m c).2) = tb (gc_d c).
Proof. unfold on_b. by destruct (m (gc_b c)). Qed.
Lemma gpres_unwrap {A} (x : option A) (c : gctx V D) :
  ta (gc_d (unwrap x c).2) = ta (gc_d c) /\ tb (gc_d (unwrap x c).2) = tb (gc_d c).
Proof. by destruct x. Qed.
Lemma gpres_assert b (c : gctx V D) :
  ta (gc_d (assert b c).2) = ta (gc_d c) /\ tb (gc_d (assert b c).2) = tb (gc_d c).
Proof. by destruct b. Qed.
End gpres.
Lemma gpres_on_nd {A} (m : M (sset (nat * nat)) A) (c : gctx V non_data) :
  nd_a (gc_d (on_d (on_nd m) c).2) = nd_a (gc_d c) /\ nd_b (gc_d (on_d (on_nd m) c).2) = nd_b (gc_d c).
Proof. unfold on_d, on_nd. by destruct (m (nd_set (gc_d c))). Qed.

Ltac gp := repeat first
  [ progress intros
  | match goal with
    | |- gpres _ _ (ret _) => apply gpres_ret
    | |- gpres _ _ (bind _ _) => apply gpres_bind
    | |- gpres _ _ (on_a _) => intros c; apply gpres_on_a
    | |- gpres _ _ (on_b _) => intros c; apply gpres_on_b
    | |- gpres _ _ (for_range _ _ _) => apply gpres_for_range
    | |- gpres _ _ (on_d (on_nd _)) => intros c; apply gpres_on_nd
    | |- gpres _ _ (on_d _) => intros c; done
    | |- gpres _ _ (if ?b then _ else _) => destruct b
    | |- gpres _ _ (match ?b with _ => _ end) => destruct b
    | |- _ = _ /\ _ = _ => first [apply gpres_on_a | apply gpres_on_b | apply gpres_unwrap | apply gpres_assert | apply gpres_on_nd | done]
    end ].
Lemma gp_full_add id : gpres fd_a fd_b (full_add id).
Proof. unfold full_add. gp. Qed.
Lemma gp_full_remove id : gpres fd_a fd_b (full_remove id).
Proof. unfold full_remove. gp. Qed.
Lemma gp_full_make : gpres fd_a fd_b full_make.
Proof. unfold full_make. gp. Qed.
Lemma gp_part_add id : gpres pd_a pd_b (part_add id).
Proof. unfold part_add. gp. Qed.
Lemma gp_part_remove id : gpres pd_a pd_b (part_remove id).
Proof. unfold part_remove. gp. Qed.
Lemma gp_part_make : gpres pd_a pd_b part_make.
Proof. unfold part_make. gp. Qed.
Lemma gp_non_add id : gpres nd_a nd_b (non_add id).
Proof. unfold non_add. gp. Qed.
Lemma gp_non_remove id : gpres nd_a nd_b (non_remove id).
Proof. unfold non_remove. gp. Qed.
Lemma gp_non_make : gpres nd_a nd_b non_make.
Proof. unfold non_make. gp. Qed.

Lemma keeps_poke w t i f : keeps w (poke w t i f).
Proof.
  unfold poke. destruct (w_comps w !! t) as [st|] eqn:Hst; [|done].
  destruct (sdata (st_set st) !! i); [|done]. by apply keeps_comp.
Qed.
Lemma keeps_poke_item f id it w : keeps w (poke_item f id it w).
Proof.
  revert w. induction it; intros w; simpl; [destruct m; [apply keeps_poke|done]|..];
    repeat (eapply keeps_trans; [|match goal with H : forall w, keeps w _ |- _ => apply H end]); try done;
    eauto using keeps_trans.
Qed.
Lemma pres_drive fuel J f st : pres (drive fuel J f st).
Proof.
  revert st. induction fuel as [|fuel IH]; intros st w; [done|]. cbn [drive].
  destruct (qi_next_id J w st) as [[[[id it]|]| | |] st']; try done.
  destruct (deref w it); [|done]. specialize (IH st' (poke_item f id it w)).
  destruct (drive fuel J f st' (poke_item f id it w)) as [[] w']; simpl in *;
    (eapply keeps_trans; [apply keeps_poke_item|exact IH]).
Qed.
Lemma pres_query_mut q f : pres (run_query_mut q f).
Proof. intros w. unfold run_query_mut. destruct (query_open w q []) as [[]]; try done. apply pres_drive. Qed.

(** is it a call that registers a type, makes a group or sets a resource? *)
Definition special (o : op V) : bool :=
  match o with Register _ | MakeGroup _ _ _ | RegisterRes _ _ | WriteRes _ _ => true | _ => false end.

Ltac pr := repeat first
  [ progress intros
  | match goal with
    | |- pres (ret _) => apply pres_ret
    | |- pres get => apply pres_get
    | |- pres ub => apply pres_ub
    | |- pres panic => apply pres_panic
    | |- pres (lift _) => apply pres_lift
    | |- pres (assert _) => apply pres_assert
    | |- pres (fmapM _ _) => apply pres_fmapM
    | |- pres (storage_mut _ _) => apply pres_storage_mut
    | |- pres (dyn_mut _ _) => apply pres_dyn_mut
    | |- pres (on_em _) => apply pres_on_em
    | |- pres (for_each _ _) => apply pres_for_each
    | |- pres (run_group_at _ _ _ _) => apply pres_run_group
    | |- pres (run_query_mut _ _) => apply pres_query_mut
    | |- pres (bind _ _) => apply pres_bind
    | |- pres (if ?b then _ else _) => destruct b
    | |- pres (match ?b with _ => _ end) => destruct b
    end ].
Lemma pres_step o : special o = false -> pres (step o).
Proof.
  destruct o; intros Hs; try done; cbn [step];
    unfold create_entity, create_entities, remove_entity, attach_component, detach_component, entity_attach,
      entity_detach, entities_attach, entity_component_read, entity_component_write, storage_get_mut,
      storage_data_set, resource_read, via_storage;
    pr; try apply gp_full_add; try apply gp_full_remove; try apply gp_part_add; try apply gp_part_remove;
    try apply gp_non_add; try apply gp_non_remove.
  - apply gpres_bind; [apply gp_full_remove|]. gp.
  - apply gpres_bind; [apply gp_part_remove|]. gp.
Qed.

(** make_group appends at most one group *)
Lemma make_group_keeps k a b w : exists gs,
  w_res (make_group k a b w).2 = w_res w /\
  (forall t, st_ty <$> w_comps (make_group k a b w).2 !! t = st_ty <$> w_comps w !! t) /\
  g_static <$> w_groups (make_group k a b w).2 = (g_static <$> w_groups w) ++ gs /\
  (gs = [] \/ gs = [(k, a, b)]) /\
  (gs = [] -> (make_group k a b w) = (Panic, w)).
Proof.
  unfold make_group. rewrite bind_get. destruct (has_group (new_group k a b) w); cbn [negb].
  { rewrite bind_assert_false by done. exists []. rewrite app_nil_r. split; [done|]. split; [done|]. split; [done|]. auto. }
  rewrite bind_assert_true by done. destruct (owner_conflict (new_group k a b) w); cbn [negb].
  { rewrite bind_assert_false by done. exists []. rewrite app_nil_r. split; [done|]. split; [done|]. split; [done|]. auto. }
  rewrite bind_assert_true by done. rewrite bind_put.
  pose proof (pres_run_group (length (w_groups w)) full_make part_make non_make gp_full_make gp_part_make gp_non_make
    (set_groups (w_groups w ++ [new_group k a b]) w)) as [K1 K2 K3].
  exists [(k, a, b)]. split; [by rewrite K3|]. split; [by intros t; rewrite K1|].
  split; [rewrite K2; simpl; rewrite fmap_app; simpl; by destruct k|]. split; [by right|done].
Qed.
(** ** The invariant of all histories *)
Record sound w (h : history V) : Prop := {
  so_reg : forall t, is_Some (w_comps w !! t) <-> t ∈ types_of h;
  so_ty : forall t st, w_comps w !! t = Some st -> st_ty st = t;
  so_res : forall r, w_res w !! r = RV r <$> res_of h r;
}.
Lemma types_snoc (h : history V) ev : types_of (h ++ [ev]) = reg_event (types_of h) ev.
Proof. unfold types_of. by rewrite foldl_app. Qed.
Lemma res_snoc (h : history V) r ev : res_of (h ++ [ev]) r = res_event r (res_of h r) ev.
Proof. unfold res_of. by rewrite foldl_app. Qed.
Lemma sound_keeps w w' h o r : sound w h -> keeps w w' ->
  types_of (h ++ [(o, r)]) = types_of h -> (forall x, res_of (h ++ [(o, r)]) x = res_of h x) -> sound w' (h ++ [(o, r)]).
Proof.
  intros [S1 S2 S3] [K1 K2 K3] Ht Hr. split.
  - intros t. rewrite Ht, <- S1. specialize (K1 t). destruct (w_comps w' !! t), (w_comps w !! t); try done;
      split; intros [? ?]; eauto; done.
  - intros t st Hst. specialize (K1 t). rewrite Hst in K1. destruct (w_comps w !! t) as [st'|] eqn:E; [|done].
    simpl in K1. injection K1 as K1. rewrite K1. by apply S2.
  - intros x. rewrite K3, S3. by rewrite Hr.
Qed.
Lemma register_eq t w : register t w =
  if has_registered t w then (Panic, w) else (Ret tt, set_comps (<[t := St t ss_new]> (w_comps w)) w).
Proof. unfold register. rewrite bind_get. by destruct (has_registered t w). Qed.
Lemma sound_step w h o : sound w h -> sound (step o w).2 (h ++ [(o, (step o w).1)]).
Proof.
  intros S. destruct (special o) eqn:Es.
  2:{ apply (sound_keeps w); [done|by apply pres_step|..].
      - rewrite types_snoc. by destruct o.
      - intros x. rewrite res_snoc. by destruct o. }
  destruct o; try done; cbn [step].
  - (* Register *)
    unfold fmapM, bind. rewrite register_eq. destruct (has_registered t w) eqn:Hr; unfold has_registered in Hr.
    + simpl. apply (sound_keeps w); [done|done|by rewrite types_snoc|].
      intros x. by rewrite res_snoc.
    + cbn [fst snd]. destruct S as [S1 S2 S3]. split.
      * intros u. rewrite types_snoc. simpl. rewrite elem_of_union, elem_of_singleton, <- S1.
        destruct (decide (u = t)) as [->|Hne]; [rewrite lookup_insert; split; eauto|].
        rewrite lookup_insert_ne by done. tauto.
      * intros u st. simpl. destruct (decide (u = t)) as [->|Hne].
        -- rewrite lookup_insert. by intros [= <-].
        -- rewrite lookup_insert_ne by done. apply S2.
      * intros x. rewrite res_snoc. simpl. apply S3.
  - (* MakeGroup *)
    destruct (make_group_keeps k a b w) as (gs & K1 & K2 & _). unfold fmapM, bind.
    destruct (make_group k a b w) as [r' w'] eqn:E. simpl in K1, K2.
    assert (sound w' h) as S'.
    { destruct S as [S1 S2 S3]. split.
      - intros t. rewrite <- S1. specialize (K2 t). destruct (w_comps w' !! t), (w_comps w !! t); try done;
          split; intros [? ?]; eauto; done.
      - intros t st Hst. specialize (K2 t). rewrite Hst in K2. destruct (w_comps w !! t) as [st'|] eqn:E'; [|done].
        simpl in K2. injection K2 as K2. rewrite K2. by apply S2.
      - intros x. by rewrite K1, S3. }
    destruct r'; simpl; (apply (sound_keeps w'); [done|done|by rewrite types_snoc|intros x; by rewrite res_snoc]).
  - (* RegisterRes *)
    destruct S as [S1 S2 S3]. simpl. split; simpl.
    + intros t. rewrite types_snoc. apply S1.
    + apply S2.
    + intros x. rewrite res_snoc. simpl. destruct (decide (r = x)) as [->|]; [by rewrite lookup_insert|].
      rewrite lookup_insert_ne by done. apply S3.
  - (* WriteRes *)
    destruct S as [S1 S2 S3]. unfold fmapM, resource_write, bind, get. rewrite S3.
    destruct (res_of h r) as [x|] eqn:Er; simpl.
    + rewrite Nat.eqb_refl. simpl. split; simpl.
      * intros t. rewrite types_snoc. apply S1.
      * apply S2.
      * intros y. rewrite res_snoc. simpl. destruct (decide (r = y)) as [->|]; [by rewrite lookup_insert|].
        rewrite lookup_insert_ne by done. apply S3.
    + split; simpl.
      * intros t. rewrite types_snoc. apply S1.
      * apply S2.
      * intros y. rewrite res_snoc. simpl. apply S3.
Qed.
Lemma sound_all ops : sound (after ops) (seen ops).
Proof.
  induction ops as [|o ops IH] using rev_ind.
  - split; simpl.
    + intros t. rewrite lookup_empty. split; [by intros [? ?]|]. by intros ?%not_elem_of_empty.
    + intros t st. by rewrite lookup_empty.
    + intros r. by rewrite lookup_empty.
  - rewrite seen_snoc, after_snoc. unfold answer. by apply sound_step.
Qed.

(** ** C19 *)
(** Whatever has been called before: the storage kept under a type is the one
    made by register of that type, and so for resources; so every unchecked
    downcast (each compares these tags in the model) is to the true type. *)
Theorem C19_no_confusion ops :
  (forall t st, w_comps (after ops) !! t = Some st -> st_ty st = t) /\
  (forall r x, w_res (after ops) !! r = Some x -> rv_ty x = r).
Proof.
  destruct (sound_all ops) as [_ S2 S3]. split; [done|]. intros r x. rewrite S3.
  destruct (res_of (seen ops) r); [|done]. by intros [= <-].
Qed.
(** As the caller sees it: components_read::<T>() gives a storage guard exactly
    for the registered types (never undefined behaviour), and so does
    resource_read. *)
Theorem C19_guard_iff_registered ops t :
  answer ops (StoreCount t) = Ret (ONatOpt None) <-> t ∉ types_of (seen ops).
Proof.
  destruct (sound_all ops) as [S1 S2 _]. unfold answer. simpl. unfold fmapM, via_storage, bind, get, lift, components_read.
  rewrite <- S1. destruct (w_comps (after ops) !! t) as [st|] eqn:E.
  - rewrite (S2 _ _ E), Nat.eqb_refl. simpl. split; [done|]. intros Hn. exfalso. apply Hn. eauto.
  - simpl. split; [|done]. intros _ [? ?]. done.
Qed.

(** ** C20 *)
(** has_registered tells exactly whether a register of the type returned. *)
Theorem C20_has_registered ops t :
  step (HasRegistered t) (after ops) = (Ret (OBool (bool_decide (t ∈ types_of (seen ops)))), after ops).
Proof.
  simpl. unfold bind, get, ret, has_registered. do 3 f_equal. apply bool_decide_ext. apply (so_reg _ _ (sound_all ops)).
Qed.
(** register of a new type returns; the type is then registered with an empty
    storage, and that is all that changes. *)
Theorem C20_register_new ops t : t ∉ types_of (seen ops) ->
  answer ops (Register t) = Ret OUnit /\
  let ops' := ops ++ [Register t] in
  answer ops' (HasRegistered t) = Ret (OBool true) /\
  answer ops' (StoreCount t) = Ret (ONatOpt (Some 0)) /\
  answer ops' (StoreData t) = Ret (OData (Some [])) /\
  w_em (after ops') = w_em (after ops) /\ w_groups (after ops') = w_groups (after ops) /\
  w_res (after ops') = w_res (after ops) /\
  forall u, u <> t -> w_comps (after ops') !! u = w_comps (after ops) !! u.
Proof.
  intros Ht. rewrite <- (so_reg _ _ (sound_all ops)) in Ht.
  assert (step (Register t) (after ops) = (Ret OUnit, set_comps (<[t := St t ss_new]> (w_comps (after ops))) (after ops))) as E.
  { cbn [step]. unfold fmapM, bind. rewrite register_eq. unfold has_registered. by rewrite bool_decide_false. }
  split; [unfold answer; by rewrite E|]. intros ops'. unfold answer, ops'. rewrite after_snoc, E. cbn [snd].
  unfold step, fmapM, via_storage, components_read, has_registered, bind, get, lift. cbn [set_comps w_comps w_em w_groups w_res].
  rewrite lookup_insert. cbn [st_ty st_set]. rewrite Nat.eqb_refl. do 6 (split; [done|]).
  intros u Hu. by rewrite lookup_insert_ne.
Qed.
(** register of a registered type panics and changes nothing *)
Theorem C20_register_again ops t : t ∈ types_of (seen ops) ->
  step (Register t) (after ops) = (Panic, after ops).
Proof.
  intros Ht. rewrite <- (so_reg _ _ (sound_all ops)) in Ht. cbn [step]. unfold fmapM, bind.
  rewrite register_eq. unfold has_registered. by rewrite bool_decide_true.
Qed.
(** nothing unregisters a type *)
Theorem C20_permanent ops ops' t : answer ops (HasRegistered t) = Ret (OBool true) ->
  answer (ops ++ ops') (HasRegistered t) = Ret (OBool true).
Proof.
  unfold answer. rewrite !C20_has_registered. simpl. intros [= Ht%bool_decide_eq_true]. do 2 f_equal. apply bool_decide_eq_true.
  induction ops' as [|o ops' IH] using rev_ind; [by rewrite app_nil_r|].
  rewrite app_assoc, seen_snoc, types_snoc. unfold reg_event. destruct o; try done. destruct (answer _ _); set_solver.
Qed.

(** ** C35 *)
(** resource_read gives the value last registered or written; resource_write
    finds exactly the registered ones. *)
Theorem C35_resource_value ops r v :
  step (ReadRes r) (after ops) = (Ret (OVal (res_of (seen ops) r)), after ops) /\
  answer ops (RegisterRes r v) = Ret OUnit /\
  answer ops (WriteRes r v) = Ret (OBool (bool_decide (is_Some (res_of (seen ops) r)))).
Proof.
  destruct (sound_all ops) as [_ _ S3]. unfold answer. simpl.
  unfold fmapM, resource_read, resource_write, bind, get, ret. rewrite S3.
  destruct (res_of (seen ops) r) as [x|]; simpl; [|done]. by rewrite Nat.eqb_refl.
Qed.
(** Resource calls touch nothing but the resource they name, and no other call
    touches a resource. *)
Theorem C35_independent ops :
  (forall r v o, o = RegisterRes r v \/ o = WriteRes r v ->
     let w := after ops in let w' := after (ops ++ [o]) in
     w_em w' = w_em w /\ w_comps w' = w_comps w /\ w_groups w' = w_groups w /\
     (forall r', r' <> r -> w_res w' !! r' = w_res w !! r')) /\
  (forall o, (forall r v, o <> RegisterRes r v /\ o <> WriteRes r v) ->
     w_res (after (ops ++ [o])) = w_res (after ops)).
Proof.
  split.
  - intros r v o Ho w w'. unfold w', w. rewrite after_snoc. destruct Ho as [-> | ->].
    + simpl. do 3 (split; [done|]). intros r' Hr. by rewrite lookup_insert_ne.
    + cbn [step]. unfold fmapM, resource_write, bind, get. destruct (w_res (after ops) !! r) as [x|]; [|done].
      destruct (rv_ty x =? r); [|done]. simpl. do 3 (split; [done|]). intros r' Hr. by rewrite lookup_insert_ne.
  - intros o Ho. rewrite after_snoc. destruct (special o) eqn:Es; [|by apply pres_step].
    destruct o; try done.
    + cbn [step]. unfold fmapM, register, bind, get, assert. by destruct (has_registered t (after ops)).
    + cbn [step]. destruct (make_group_keeps k a b (after ops)) as (gs & K1 & _). unfold fmapM, bind.
      by destruct (make_group k a b (after ops)) as [[] w'].
    + by destruct (Ho r v) as [Hn _].
    + by destruct (Ho r v) as [_ Hn].
Qed.
End keeps.

(** C35, as the caller sees it: the calls about resources and all the other
    calls do not see each other. *)
From stdpp Require Import prelude list gmap.
From Verif Require Import Base Api ModelSparse ModelEntity ModelGroup ModelWorld ModelQuery ModelStep
  Spec History Rules Samples ProofSparse ProofEntity ProofGroup ProofWorld ProofOps ProofConc ProofConc2 PropEntity PropComp PropWorld PropMore.

Section res.
Context {V : Type}.
Implicit Types (w : world V) (ops : list (op V)).

(** the same but for the resources *)
Definition sim w w' : Prop := w' = set_res (w_res w') w.
Lemma sim_res r w : sim w (set_res r w).
Proof. done. Qed.
Lemma sim_refl w : sim w w.
Proof. by destruct w. Qed.
Lemma sim_eq w w' : w_em w = w_em w' -> w_comps w = w_comps w' -> w_groups w = w_groups w' -> sim w w'.
Proof. destruct w, w'. unfold sim, set_res. simpl. by intros -> -> ->. Qed.
Lemma sim_em w w' : sim w w' -> w_em w' = w_em w.
Proof. by intros ->. Qed.
Lemma sim_comps w w' : sim w w' -> w_comps w' = w_comps w.
Proof. by intros ->. Qed.
Lemma sim_groups w w' : sim w w' -> w_groups w' = w_groups w.
Proof. by intros ->. Qed.

(** *** Queries *)
Record qblind (J : qiter V) : Prop := {
  qb_next : forall w r, meq (qi_next J (set_res r w)) (qi_next J w);
  qb_next_id : forall w r, meq (qi_next_id J (set_res r w)) (qi_next_id J w);
  qb_from : forall w r id, meq (qi_from_id J (set_res r w) id) (qi_from_id J w id);
  qb_fuel : forall w r st, qi_fuel J (set_res r w) st = qi_fuel J w st }.
Ltac qb := repeat first
  [ progress intros
  | match goal with
    | |- meq ?m ?m => apply meq_refl
    | H : qblind ?J |- meq (qi_next_id ?J _) (qi_next_id ?J _) => apply (qb_next_id _ H)
    | H : qblind ?J |- meq (qi_from_id ?J _ _) (qi_from_id ?J _ _) => apply (qb_from _ H)
    | H : qblind ?J |- qi_fuel ?J _ _ = qi_fuel ?J _ _ => apply (qb_fuel _ H)
    | H : qblind ?J |- S (qi_fuel ?J _ _) = S (qi_fuel ?J _ _) => f_equal; apply (qb_fuel _ H)
    | |- meq (on_fst _) (on_fst _) => apply meq_fst
    | |- meq (on_snd _) (on_snd _) => apply meq_snd
    | |- meq (while_some _ _ _) (while_some _ _ _) => apply meq_while
    | |- meq (bind _ _) (bind _ _) => apply meq_bind
    | x : _ * item |- _ => destruct x
    | |- meq (match ?b with _ => _ end) _ => destruct b
    end ].
Ltac qbs := split; cbn [qi_next qi_next_id qi_from_id qi_hint qi_fuel with2 with3 with4 with5 without_left without_right]; qb; try reflexivity.
Lemma blind_ref m t : qblind (iter_ref m t).
Proof. by split. Qed.
Lemma blind_full ma mb a b n : qblind (iter_full ma mb a b n).
Proof. by split. Qed.
Lemma blind_part ma mb a b n : qblind (iter_part ma mb a b n).
Proof. by split. Qed.
Lemma blind_non ma mb a b n : qblind (iter_non ma mb a b n).
Proof. by split. Qed.
Lemma blind_2 A B : qblind A -> qblind B -> qblind (with2 A B).
Proof. intros. qbs. Qed.
Lemma blind_3 A B C : qblind A -> qblind B -> qblind C -> qblind (with3 A B C).
Proof. intros. qbs. Qed.
Lemma blind_4 A B C D : qblind A -> qblind B -> qblind C -> qblind D -> qblind (with4 A B C D).
Proof. intros. qbs. Qed.
Lemma blind_5 A B C D E : qblind A -> qblind B -> qblind C -> qblind D -> qblind E -> qblind (with5 A B C D E).
Proof. intros. qbs. Qed.
Lemma blind_l A B : qblind A -> qblind B -> qblind (without_left A B).
Proof. intros. qbs. Qed.
Lemma blind_r A B : qblind A -> qblind B -> qblind (without_right A B).
Proof. intros. qbs. Qed.

Lemma open_blind q : forall w r, meq (query_open (set_res r w) q) (query_open w q).
Proof. induction q; intros w r; cbn [query_open]; qb; first [solve [auto]|apply meq_refl]. Qed.
Lemma opened_blind q : forall w h J h', query_open w q h = (Ret J, h') -> qblind J.
Proof.
  induction q; intros w h J h'; cbn [query_open]; intros E;
    repeat match goal with
    | H : bind (query_open ?w ?q) _ ?h = (Ret _, _) |- _ =>
        let E := fresh "E" in let o := fresh "o" in unfold bind at 1 in H; destruct (query_open w q h) as [[o| | |] ?] eqn:E; try done
    | H : bind ?m _ ?h = (Ret _, _) |- _ => unfold bind at 1 in H; destruct (m h) as [[?| | |] ?]; try done
    | H : match ?k with _ => _ end _ = _ |- _ => destruct k; try done
    | H : ret _ _ = (Ret _, _) |- _ => injection H as <- <-
    end; eauto 9 using blind_ref, blind_full, blind_part, blind_non, blind_2, blind_3, blind_4, blind_5, blind_l, blind_r.
Qed.
Lemma deref_blind it : forall w r, deref (set_res r w) it = deref w it.
Proof. induction it; intros w r; simpl; rewrite ?IHit1, ?IHit2, ?IHit3, ?IHit4, ?IHit5; done. Qed.
Lemma collect_blind J n : qblind J -> forall w r st, collect n (set_res r w) J st = collect n w J st.
Proof.
  intros HJ. induction n as [|n IH]; intros w r st; [done|]. cbn [collect]. rewrite (qb_next_id _ HJ w r st).
  destruct (qi_next_id J w st) as [[[[id it]|]| | |] st']; try done. rewrite deref_blind, IH. done.
Qed.
Lemma run_query_blind w r q : run_query (set_res r w) q = run_query w q.
Proof.
  unfold run_query. rewrite (open_blind q w r []). destruct (query_open w q []) as [[J| | |] h] eqn:E; try done.
  pose proof (opened_blind _ _ _ _ _ E) as HJ. rewrite (qb_fuel _ HJ). by apply collect_blind.
Qed.
Lemma poke_blind w r t i g : poke (set_res r w) t i g = set_res r (poke w t i g).
Proof. unfold poke. simpl. destruct (w_comps w !! t); [|done]. by destruct (_ !! i). Qed.
Lemma poke_item_blind f id it : forall w r, poke_item f id it (set_res r w) = set_res r (poke_item f id it w).
Proof.
  induction it; intros w r; simpl; rewrite ?IHit1, ?IHit2, ?IHit3, ?IHit4, ?IHit5; try done.
  destruct m; [apply poke_blind|done].
Qed.

(** *** Calls *)
Definition mrel {A} (m m' : M (world V) A) : Prop := forall w r,
  (m' (set_res r w)).1 = (m w).1 /\ (m' (set_res r w)).2 = set_res r (m w).2.
Notation blind m := (mrel m m).
Lemma mrel_bind {A B} (m m' : M (world V) A) (k k' : A -> M (world V) B) :
  mrel m m' -> (forall a, mrel (k a) (k' a)) -> mrel (bind m k) (bind m' k').
Proof.
  intros Hm Hk w r. unfold bind. destruct (Hm w r) as [E1 E2]. destruct (m' (set_res r w)) as [o' s'], (m w) as [o s].
  simpl in *. subst. destruct o as [a| | |]; try done. apply Hk.
Qed.
Lemma mrel_get {B} (k k' : world V -> M (world V) B) : (forall w r, mrel (k w) (k' (set_res r w))) ->
  mrel (bind get k) (bind get k').
Proof. intros Hk w r. apply Hk. Qed.
Lemma b_ret {A} (a : A) : blind (ret a).
Proof. done. Qed.
Lemma b_ub {A} : blind (@ub (world V) A).
Proof. done. Qed.
Lemma b_panic {A} : blind (@panic (world V) A).
Proof. done. Qed.
Lemma b_lift {A} (o : outcome A) : blind (lift o).
Proof. done. Qed.
Lemma b_assert b : blind (assert b).
Proof. by destruct b. Qed.
Lemma b_fmapM {A B} (f : A -> B) (m m' : M (world V) A) : mrel m m' -> mrel (fmapM f m) (fmapM f m').
Proof. intros H. apply mrel_bind; [done|]. intros a. apply b_ret. Qed.
Lemma b_storage_mut {A} t (m : M (sset V) A) : blind (storage_mut t m).
Proof. intros w r. unfold storage_mut. simpl. destruct (w_comps w !! t); [|done]. destruct (_ =? _); [|done]. by destruct (m _). Qed.
Lemma b_dyn_mut {A} t (m : M (sset V) A) : blind (dyn_mut t m).
Proof. intros w r. unfold dyn_mut. simpl. destruct (w_comps w !! t); [|done]. by destruct (m _). Qed.
Lemma b_on_em {A} (m : M em A) : blind (on_em m).
Proof. intros w r. unfold on_em. simpl. by destruct (m _). Qed.
Lemma b_run_group i ff fp fn : blind (run_group_at i ff fp fn).
Proof.
  intros w r. unfold run_group_at. simpl. repeat case_match; try done; simplify_eq; try done.
Qed.
Lemma b_for_each {A} (l : list A) (f f' : A -> M (world V) unit) : (forall a, mrel (f a) (f' a)) -> mrel (for_each l f) (for_each l f').
Proof. intros H. induction l; [done|]. cbn [for_each]. by apply mrel_bind. Qed.
Lemma b_query_mut q f : blind (run_query_mut q f).
Proof.
  intros w r. unfold run_query_mut. rewrite (open_blind q w r []).
  destruct (query_open w q []) as [[J| | |] h] eqn:E; try done.
  pose proof (opened_blind _ _ _ _ _ E) as HJ. rewrite (qb_fuel _ HJ). clear E.
  generalize (S (qi_fuel J w (qi_init J))). generalize (qi_init J). intros st n. revert w st. induction n as [|n IH]; intros w st; [by split|].
  cbn [drive]. rewrite (qb_next_id _ HJ w r st). destruct (qi_next_id J w st) as [[[[id it]|]| | |] st']; try done.
  rewrite deref_blind. destruct (deref w it); [|done]. rewrite poke_item_blind.
  destruct (IH (poke_item f id it w) st') as [E1 E2].
  destruct (drive n J f st' (set_res r (poke_item f id it w))) as [o1 s1], (drive n J f st' (poke_item f id it w)) as [o2 s2].
  simpl in *. subst. by destruct o2.
Qed.
Lemma b_collect_in_group w r id gs : forall i, collect_in_group (set_res r w) id gs i = collect_in_group w id gs i.
Proof. induction gs as [|g gs IH]; intros i; [done|]. cbn [collect_in_group]. rewrite IH. done. Qed.

(** is it a call about resources? *)
Definition about_res (o : op V) : bool :=
  match o with RegisterRes _ _ | ReadRes _ | WriteRes _ _ => true | _ => false end.

Ltac bl := repeat first
  [ progress intros
  | match goal with
    | |- mrel (ret _) (ret _) => apply b_ret
    | |- mrel ub ub => apply b_ub
    | |- mrel panic panic => apply b_panic
    | |- mrel (lift (collect_in_group _ _ _ _)) _ => rewrite b_collect_in_group; apply b_lift
    | |- mrel (lift (run_query _ _)) _ => rewrite run_query_blind; apply b_lift
    | |- mrel (lift _) (lift _) => apply b_lift
    | |- mrel (assert _) (assert _) => apply b_assert
    | |- mrel (fmapM _ _) (fmapM _ _) => apply b_fmapM
    | |- mrel (storage_mut _ _) (storage_mut _ _) => apply b_storage_mut
    | |- mrel (dyn_mut _ _) (dyn_mut _ _) => apply b_dyn_mut
    | |- mrel (on_em _) (on_em _) => apply b_on_em
    | |- mrel (for_each _ _) (for_each _ _) => apply b_for_each
    | |- mrel (run_group_at _ _ _ _) (run_group_at _ _ _ _) => apply b_run_group
    | |- mrel (run_query_mut _ _) (run_query_mut _ _) => apply b_query_mut
    | |- mrel (bind get _) (bind get _) => apply mrel_get
    | |- mrel (bind _ _) (bind _ _) => apply mrel_bind
    | |- mrel (if ?b then _ else _) _ => destruct b
    | |- mrel (match ?b with _ => _ end) _ => destruct b
    end ].
Lemma b_register t : blind (register t).
Proof. intros w r. rewrite !register_eq. change (has_registered t (set_res r w)) with (has_registered t w). by destruct (has_registered t w). Qed.
Lemma b_make_group k a b : blind (make_group k a b).
Proof.
  intros w r. unfold make_group. rewrite !bind_get.
  change (has_group (new_group k a b) (set_res r w)) with (has_group (new_group k a b) w).
  change (owner_conflict (new_group k a b) (set_res r w)) with (owner_conflict (new_group k a b) w).
  destruct (has_group (new_group k a b) w); cbn [negb]; [by rewrite !bind_assert_false by done|]. rewrite !bind_assert_true by done.
  destruct (owner_conflict (new_group k a b) w); cbn [negb]; [by rewrite !bind_assert_false by done|]. rewrite !bind_assert_true by done.
  rewrite !bind_put. exact (b_run_group (length (w_groups w)) full_make part_make non_make (set_groups (w_groups w ++ [new_group k a b]) w) r).
Qed.
Lemma b_step o : about_res o = false -> blind (step o).
Proof.
  destruct o; intros Hs; try done; cbn [step]; try (apply b_fmapM; first [apply b_register | apply b_make_group]);
    unfold create_entity, create_entities, remove_entity, attach_component, detach_component, entity_attach,
      entity_detach, entities_attach, entity_component_read, entity_component_write, storage_get_mut,
      storage_data_set, via_storage; bl; try done.
Qed.
Lemma res_step o w w' : about_res o = true -> w_res w = w_res w' ->
  (step o w).1 = (step o w').1 /\ w_res (step o w).2 = w_res (step o w').2 /\
  w_em (step o w).2 = w_em w /\ w_comps (step o w).2 = w_comps w /\ w_groups (step o w).2 = w_groups w.
Proof.
  intros Ho E. destruct o; try done; cbn [step]; unfold fmapM, register_resource, resource_read, resource_write, bind, get, put, ret;
    rewrite <- ?E; simpl; try done.
  - destruct (w_res w !! r); [|done]. by destruct (_ =? _).
  - destruct (w_res w !! r); [|done]. by destruct (_ =? _).
Qed.
Lemma other_step o w : about_res o = false -> w_res (step o w).2 = w_res w.
Proof.
  intros Ho. destruct (special o) eqn:Es; [|by apply pres_step].
  destruct o; try done; cbn [step]; unfold fmapM, bind.
  - rewrite register_eq. by destruct (has_registered t w).
  - destruct (make_group_keeps k a b w) as (gs & K & _). by destruct (make_group k a b w) as [[] ?].
Qed.

(** Leaving out all the calls about resources changes no answer of any other
    call; leaving out all the other calls changes no answer of the calls about
    resources. *)
Theorem C35_unseen ops :
  seen (filter (fun o => about_res o = false) ops) = filter (fun ev => about_res ev.1 = false) (seen ops) /\
  seen (filter (fun o => about_res o = true) ops) = filter (fun ev => about_res ev.1 = true) (seen ops).
Proof.
  unfold seen. split.
  - assert (forall w r, trace (filter (fun o => about_res o = false) ops) w =
      filter (fun ev => about_res ev.1 = false) (trace ops (set_res r w))) as H.
    { induction ops as [|o ops IH]; intros w r; [done|]. cbn [trace]. destruct (about_res o) eqn:Ho.
      - rewrite !filter_cons_False by (simpl; congruence).
        destruct (res_step o (set_res r w) (set_res r w) Ho eq_refl) as (_ & _ & E1 & E2 & E3).
        assert (sim w (step o (set_res r w)).2) as -> by (by apply sim_eq). apply IH.
      - rewrite !filter_cons_True by done. cbn [trace]. destruct (b_step o Ho w r) as [E1 E2].
        rewrite E1, E2. f_equal. apply IH. }
    apply (H w_new ∅).
  - assert (forall w w', w_res w = w_res w' -> trace (filter (fun o => about_res o = true) ops) w =
      filter (fun ev => about_res ev.1 = true) (trace ops w')) as H.
    { induction ops as [|o ops IH]; intros w w' E; [done|]. cbn [trace]. destruct (about_res o) eqn:Ho.
      - rewrite !filter_cons_True by done. cbn [trace]. destruct (res_step o w w' Ho E) as (E1 & E2 & _).
        rewrite E1. f_equal. by apply IH.
      - rewrite !filter_cons_False by (simpl; congruence). apply IH. by rewrite (other_step o w' Ho). }
    by apply H.
Qed.
End res.

(** a case: a history with both, in which both parts are not trivial *)
Example C35_unseen_case :
  length (filter (fun o => about_res o = false) rough) = 10 /\ length (filter (fun o => about_res o = true) rough) = 4 /\
  (seen (filter (fun o => about_res o = true) rough)).*2 = [Ret OUnit; Ret OUnit; Ret (OBool false); Ret OUnit].
Proof. repeat split; vm_compute; reflexivity. Qed.

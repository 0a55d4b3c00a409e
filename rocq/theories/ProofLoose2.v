(** What one call does to the components, in any world whose storages are well
    formed. *)
From stdpp Require Import prelude list gmap.
From Verif Require Import Base Api ModelSparse ModelEntity ModelGroup ModelWorld ModelQuery ModelStep SpecConc
  Spec History ProofSparse ProofEntity ProofGroup ProofWorld ProofMain ProofHistory ProofWf ProofConc ProofConc2 ProofConc5 ProofConc9 ProofQueryMut ProofQuery3 ProofQuery4 SpecLoose ProofLoose.

Section values.
Context {V : Type}.
Implicit Types (w : world V).

Lemma wvalue_csame w w' t id : csame w w' -> wvalue w t id = wvalue w' t id.
Proof.
  intros E. specialize (E t). unfold wvalue. destruct (w_comps w !! t) as [s|], (w_comps w' !! t) as [s'|]; try done.
  destruct E as (_ & _ & E2 & E3). unfold ss_lookup. by rewrite E3, E2.
Qed.
Lemma wvalue_comp w aw t id : R w aw -> wvalue w t id = comp aw t id.
Proof.
  intros H. pose proof (R_st _ _ H t) as S. unfold wvalue, comp. destruct (w_comps w !! t) as [s|], (a_comps aw !! t) as [m|]; try done.
  destruct S as [_ S]. apply (rep_lookup _ _ _ S).
Qed.

(** [m] keeps all the components, but those of [o] it may take *)
Definition mv {A} (o : option nat) (m : M (world V) A) : Prop := forall w, good w ->
  good (m w).2 /\ forall t id, wvalue (m w).2 t id = wvalue w t id \/ (o = Some id /\ wvalue (m w).2 t id = None).
Lemma mv_bind {A B} o (m : M (world V) A) (k : A -> M (world V) B) : mv o m -> (forall a, mv o (k a)) -> mv o (bind m k).
Proof.
  intros Hm Hk w G. unfold bind. destruct (Hm w G) as [G1 H1]. destruct (m w) as [[a| | |] w1]; try done. cbn [fst snd] in *.
  destruct (Hk a w1 G1) as [G2 H2]. split; [done|]. intros t id. destruct (H2 t id) as [->|H]; [apply H1|by right].
Qed.
Lemma mv_keep {A} o (m : M (world V) A) : (forall w, (m w).2 = w) -> mv o m.
Proof. intros H w G. rewrite H. split; [done|]. by left. Qed.
Lemma mv_each {A} o (l : list A) (f : A -> M (world V) unit) : (forall a, mv o (f a)) -> mv o (for_each l f).
Proof. intros H. induction l as [|a l IH]; [by apply mv_keep|]. cbn [for_each]. by apply mv_bind. Qed.
Lemma mv_group o i ff fp fn : (forall va vb, ok (gV (V := V) o (fun _ => True) va vb) ff) -> (forall va vb, ok (gV o (fun _ => True) va vb) fp) ->
  ok (gI (fun _ => True)) ff -> ok (gI (fun _ => True)) fp -> ok (gI ndP) fn -> mv o (run_group_at i ff fp fn).
Proof.
  intros Hf Hp H1 H2 H3 w G. split; [apply (ok_run_group i ff fp fn H1 H2 H3 w G)|]. intros t id.
  destruct (group_values o i ff fp fn w G Hf Hp t id) as [H|(_ & H & H')]; [by left|by right].
Qed.
Lemma mv_on_em {A} o (m : M em A) : mv o (on_em m).
Proof. intros w G. unfold on_em. destruct (m (w_em w)). split; [by apply good_em|]. by left. Qed.
Lemma mv_get {B} o (k : world V -> M (world V) B) : (forall w, mv o (k w)) -> mv o (bind get k).
Proof. intros H w G. by apply H. Qed.
Ltac mvg := repeat first
  [ progress intros
  | match goal with
    | |- mv _ (bind get _) => apply mv_get
    | |- mv _ (bind _ _) => apply mv_bind
    | |- mv _ (ret _) => by apply mv_keep
    | |- mv _ (lift _) => by apply mv_keep
    | |- mv _ (assert ?b) => apply mv_keep; by destruct b
    | |- mv _ (for_each _ _) => apply mv_each
    | |- mv _ (on_em _) => apply mv_on_em
    end ].
Lemma mv_add i id : mv None (run_group_at (V := V) i (full_add id) (part_add id) (non_add id)).
Proof. apply mv_group; [intros; apply gV_full_add|intros; apply gV_part_add|apply ok_full_add|apply ok_part_add|apply ok_non_add]. Qed.
Lemma mv_leave i id : mv None (run_group_at (V := V) i (full_remove id) (part_remove id) (non_remove id)).
Proof. apply mv_group; [intros; apply gV_full_remove|intros; apply gV_part_remove|apply ok_full_remove|apply ok_part_remove|apply ok_non_remove]. Qed.

Ltac okm := repeat first
  [ progress intros
  | match goal with
    | |- ok _ (ret _) => apply ok_ret
    | |- ok _ get => apply ok_get
    | |- ok _ (unwrap _) => apply ok_unwrap
    | |- ok _ (bind _ _) => apply ok_bind
    | |- ok _ (for_range _ _ _) => apply ok_for_range
    | |- ok _ (on_a _) => apply gV_on_a, vI_swap
    | |- ok _ (on_b _) => apply gV_on_b, vI_swap
    | |- ok _ (on_d _) => apply gV_on_d
    | |- ok _ (full_set_len _) => done
    | |- ok _ (part_set_len _) => done
    | |- ok _ (if ?b then _ else _) => destruct b
    | |- ok _ (match ?b with _ => _ end) => destruct b
    end ].
Lemma gV_full_make o va vb : ok (gV (V := V) o (fun _ => True) va vb) full_make.
Proof. unfold full_make. okm. Qed.
Lemma gV_part_make o va vb : ok (gV (V := V) o (fun _ => True) va vb) part_make.
Proof. unfold part_make. okm. Qed.
Lemma make_values k a b w : good w -> forall t id, wvalue (make_group (V := V) k a b w).2 t id = wvalue w t id.
Proof.
  intros G t id. unfold make_group, bind at 1, get, bind at 1, assert, panic, ret. destruct (negb (has_group _ _)); [|done].
  unfold bind at 1. destruct (negb (owner_conflict _ _)); [|done]. unfold bind, put.
  assert (good (set_groups (w_groups w ++ [new_group k a b]) w)) as G1.
  { destruct G as [A B C]. split; [done| |done]. intros i d. cbn [w_groups set_groups]. rewrite lookup_app_Some. intros [H|[_ H]]; [by apply (B i)|].
    apply list_lookup_singleton_Some in H as [_ H]. destruct k; try done. cbn in H. injection H as <-. apply wf_new. }
  destruct (group_values None (length (w_groups w)) full_make part_make non_make _ G1 (gV_full_make None) (gV_part_make None) t id) as [->|(_ & ? & _)]; done.
Qed.
Lemma attach_values t i v w : good w -> exist i w = Ret true -> has_registered t w = true -> forall u id,
  wvalue (attach_component t i v w).2 u id = if decide (t = u /\ i = id) then Some v else wvalue w u id.
Proof.
  intros G He Hr u id. unfold attach_component. rewrite bind_get, He, bind_lift, bind_assert_true by done.
  unfold entity_attach. rewrite bind_get, bind_assert_true by done. unfold bind at 1.
  apply bool_decide_eq_true in Hr as [st Hst]. destruct (gd_st w G t st Hst) as [Hty W].
  pose proof (ok_storage_mut t (ss_add i v) (ok_add i v) w G) as [G1 _]. pose proof (fun u id => wv_storage w t (ss_add i v) u id G) as H1.
  assert ((storage_mut t (ss_add i v) w).1 = Ret tt) as Er.
  { unfold storage_mut. rewrite Hst, Hty, Nat.eqb_refl. destruct (add_spec i v _ W) as (s' & -> & _). done. }
  destruct (storage_mut t (ss_add i v) w) as [r w1]. cbn [fst snd] in *. subst r. unfold bind, get.
  destruct (mv_each None (groups_with t (w_groups w1) 0) _ (fun j => mv_add j i) w1 G1) as [_ H2].
  destruct (H2 u id) as [->|[? _]]; [|done]. rewrite H1, Hst. destruct (add_spec i v _ W) as (s' & -> & _ & L & _). cbn [snd]. rewrite L.
  destruct (decide (t = u)) as [<-|]; [|rewrite decide_False by tauto; done]. unfold wvalue. rewrite Hst.
  destruct (decide (id = i)) as [->|]; [by rewrite decide_True|by rewrite decide_False by naive_solver].
Qed.
Lemma attach_refused t i v w : exist i w <> Ret true \/ has_registered t w = false -> (attach_component t i v w).2 = w.
Proof.
  intros H. unfold attach_component. rewrite bind_get. destruct (exist i w) as [[]| | |] eqn:E; try done.
  destruct H as [H|H]; [done|]. rewrite bind_lift, bind_assert_true by done. unfold entity_attach. rewrite bind_get. by rewrite bind_assert_false.
Qed.
Lemma detach_values t i w : good w -> forall u id,
  wvalue (detach_component t i w).2 u id =
    if decide (t = u /\ i = id) then match (detach_component t i w).1 with Ret _ => None | _ => wvalue w u id end else wvalue w u id.
Proof.
  intros G u id. unfold detach_component. rewrite bind_get. destruct (exist i w) as [b| | |]; [|by destruct (decide _)..].
  rewrite bind_lift. destruct b; [|rewrite bind_assert_false by done; by destruct (decide _)]. rewrite bind_assert_true by done.
  unfold entity_detach. rewrite bind_get. destruct (has_registered t w); [|rewrite bind_assert_false by done; by destruct (decide _)]. rewrite bind_assert_true by done.
  unfold bind. destruct (mv_each None (groups_with t (w_groups w) 0) _ (fun j => mv_leave j i) w G) as [G2 H2].
  destruct (for_each _ _ w) as [[[]| | |] w1]; cbn [fst snd] in *.
  2,3,4: destruct (H2 u id) as [->|[? _]]; [by destruct (decide _)|done].
  pose proof (wv_storage w1 t (ss_remove i) u id G2) as H3.
  assert (forall x y, wvalue w1 x y = wvalue w x y) as H2' by (intros x y; by destruct (H2 x y) as [|[? _]]).
  rewrite H3. unfold storage_mut. destruct (w_comps w1 !! t) as [st|] eqn:Hst; cbn [fst].
  - destruct (gd_st w1 G2 t st Hst) as [Hty W]. rewrite Hty, Nat.eqb_refl. destruct (decide (t = u)) as [<-|]; [|rewrite decide_False by tauto; apply H2'].
    rewrite (remove_lookup _ _ _ W). destruct (decide (id = i)) as [->|].
    + rewrite decide_True by done. destruct (ss_remove i (st_set st)) as [[x| | |] s'] eqn:Er; cbn [fst]; try done.
      all: rewrite <- H2'; unfold wvalue; rewrite Hst; pose proof (remove_lookup (st_set st) i i W) as K; rewrite Er, decide_True in K by done; cbn in K.
      all: destruct (ss_get_index (st_set st) i) as [k|] eqn:Ek;
        [destruct (remove_spec i k _ W Ek) as (? & ? & Er' & _); rewrite Er' in Er; discriminate Er
        |unfold ss_lookup; by rewrite Ek].
    + rewrite decide_False by naive_solver. rewrite <- H2'. unfold wvalue. by rewrite Hst.
  - destruct (decide (t = u /\ i = id)); apply H2'.
Qed.

Lemma bind_retI {S A B} (m : M S A) (f : A -> M S B) s y s' :
  bind m f s = (Ret y, s') -> exists x s1, m s = (Ret x, s1) /\ f x s1 = (Ret y, s').
Proof. unfold bind. destruct (m s) as [[x| | |] s1]; try done. eauto. Qed.
Lemma mv_kill i e : mv (Some e) (run_group_at (V := V) i
  (full_remove e >>! on_a (cs_remove e) >>! on_b (cs_remove e)) (part_remove e >>! on_a (cs_remove e)) (non_remove e)).
Proof.
  apply mv_group; [intros; apply gV_full_kill|intros; apply gV_part_kill| | |apply ok_non_remove].
  - apply ok_bind; [apply ok_full_remove|]. intros _. apply ok_bind; [apply ok_on_a, ok_cs_remove|]. intros _. apply ok_on_b, ok_cs_remove.
  - apply ok_bind; [apply ok_part_remove|]. intros _. apply ok_on_a, ok_cs_remove.
Qed.
Lemma drop_values t e w : good w -> forall u id,
  wvalue (dyn_mut t (cs_remove e) w).2 u id = if decide (t = u /\ e = id) then None else wvalue w u id.
Proof.
  intros G u id. rewrite wv_dyn. destruct (w_comps w !! t) as [st|] eqn:E.
  - destruct (gd_st w G t st E) as [_ W]. destruct (decide (t = u)) as [->|]; [|rewrite decide_False by tauto; done].
    unfold wvalue. rewrite E. rewrite (cs_remove_lookup _ _ _ W). destruct (decide (id = e)) as [->|]; [by rewrite decide_True|by rewrite decide_False by naive_solver].
  - destruct (decide (t = u /\ e = id)) as [[-> ->]|]; [|done]. unfold wvalue. by rewrite E.
Qed.
Lemma mv_drop t e : mv (Some e) (dyn_mut (V := V) t (cs_remove e)).
Proof.
  intros w G. split; [apply (ok_dyn_mut t _ (ok_cs_remove e) w G)|]. intros u id. rewrite drop_values by done.
  destruct (decide (t = u /\ e = id)) as [[-> ->]|]; [by right|by left].
Qed.
Lemma drops_values l e : forall w, good w -> forall r, (for_each l (fun t => dyn_mut t (cs_remove e)) w).1 = Ret r ->
  forall t, t ∈ l -> wvalue (for_each l (fun t => dyn_mut (V := V) t (cs_remove e)) w).2 t e = None.
Proof.
  induction l as [|a l IH]; intros w G r E t Hin; [by apply elem_of_nil in Hin|]. cbn [for_each] in *. unfold bind in *.
  pose proof (drop_values a e w G t e) as H1. destruct (mv_drop a e w G) as [G1 _].
  destruct (dyn_mut a (cs_remove e) w) as [[x| | |] w1]; try discriminate E. cbn [fst snd] in *.
  apply elem_of_cons in Hin as [->|Hin]; [|by eapply IH].
  rewrite decide_True in H1 by done. destruct (mv_each (Some e) l _ (fun t => mv_drop t e) w1 G1) as [_ H2].
  destruct (H2 a e) as [->|[_ ->]]; done.
Qed.
Lemma mv_remove i ord : mv (Some i) (remove_entity (V := V) i ord).
Proof.
  unfold remove_entity. apply mv_get. intros w. apply mv_bind; [by apply mv_keep|]. intros b.
  apply mv_bind; [apply mv_keep; by destruct b|]. intros _. apply mv_bind; [by apply mv_keep|]. intros gs.
  apply mv_bind; [apply mv_each; intros; apply mv_kill|]. intros _. apply mv_get. intros w1.
  apply mv_bind; [apply mv_each; intros; apply mv_drop|]. intros _. apply mv_on_em.
Qed.
Lemma remove_refused i ord w : exist i w <> Ret true -> (remove_entity (V := V) i ord w).2 = w.
Proof. intros H. unfold remove_entity. rewrite bind_get. by destruct (exist i w) as [[]| | |]. Qed.
Lemma remove_values i ord w : good w -> (forall t, has_registered t w = true -> t ∈ ord) -> forall r, (remove_entity (V := V) i ord w).1 = Ret r ->
  forall u id, wvalue (remove_entity i ord w).2 u id = if decide (i = id) then None else wvalue w u id.
Proof.
  intros G Ho r E u id. destruct (mv_remove i ord w G) as [_ H]. destruct (decide (i = id)) as [<-|Hne].
  2:{ destruct (H u id) as [|[? _]]; [done|]. by simplify_eq. }
  clear H. destruct (remove_entity i ord w) as [r' w'] eqn:E'. cbn [fst snd] in *. subst r'. unfold remove_entity in E'. rewrite bind_get in E'.
  destruct (exist i w) as [b| | |]; try discriminate E'. rewrite bind_lift in E'.
  destruct b; [rewrite bind_assert_true in E' by done|by rewrite bind_assert_false in E'].
  destruct (collect_in_group w i (w_groups w) 0) as [gs| | |]; try discriminate E'. rewrite bind_lift in E'.
  destruct (mv_each (Some i) gs _ (fun j => mv_kill j i) w G) as [G1 H1].
  assert (forall t, has_registered t (for_each gs (fun j => run_group_at j
      (full_remove i >>! on_a (cs_remove i) >>! on_b (cs_remove i)) (part_remove i >>! on_a (cs_remove i)) (non_remove i)) w).2 = true -> has_registered t w = true) as Hr.
  { clear. intros t. enough (forall w, has_registered t (for_each gs (fun j => run_group_at j
      (full_remove i >>! on_a (cs_remove i) >>! on_b (cs_remove i)) (part_remove i >>! on_a (cs_remove i)) (non_remove i)) w).2 = has_registered t w) as K by (by rewrite K).
    clear w. induction gs as [|g gs IH]; intros w; [done|]. cbn [for_each]. unfold bind at 1.
    assert (forall ff fp fn, has_registered t (run_group_at g ff fp fn w).2 = has_registered t w) as K.
    { clear. intros ff fp fn. unfold run_group_at.
      destruct (w_groups w !! g) as [[d|d|d]|]; [..|done].
      all: repeat match goal with
           | |- context [match w_comps ?w' !! ?x with _ => _ end] => let H := fresh "E" in destruct (w_comps w' !! x) eqn:H; try reflexivity
           | |- context [if ?x =? ?y then _ else _] => destruct (x =? y); [done|]
           end.
      all: try reflexivity.
      all: match goal with |- context [match ?e with (_, _) => _ end] => destruct e end; unfold has_registered; cbn [snd set_groups set_comps w_comps]; try done; apply bool_decide_ext.
      all: rewrite ?lookup_insert_is_Some'; split; [intros H|intros H; tauto].
      all: repeat (destruct H as [H|H]; [subst; by eexists|]); done. }
    specialize (K (full_remove i >>! on_a (cs_remove i) >>! on_b (cs_remove i)) (part_remove i >>! on_a (cs_remove i)) (non_remove i)).
    destruct (run_group_at g _ _ _ w) as [[a| | |] w1]; cbn [snd] in *; [|done..]. by rewrite IH. }
  apply bind_retI in E' as (a & w1 & Ew1 & E'). rewrite Ew1 in G1, H1, Hr. cbn [fst snd] in *. rewrite bind_get in E'.
  apply bind_retI in E' as (a' & w2 & Ew2 & E').
  pose proof (drops_values (storages_with w1 i ord) i w1 G1) as H3.
  destruct (mv_each (Some i) (storages_with w1 i ord) _ (fun t => mv_drop t i) w1 G1) as [_ H4].
  rewrite Ew2 in H3, H4. cbn [fst snd] in *.
  assert (wvalue w' u i = wvalue w2 u i) as ->.
  { unfold on_em in E'. destruct (em_remove i (w_em w2)). by injection E' as _ <-. }
  destruct (H4 u i) as [H|[_ H]]; [|done]. destruct (wvalue w1 u i) as [v|] eqn:Ev; [|done]. apply (H3 _ eq_refl).
  apply elem_of_list_filter. unfold wvalue in Ev. unfold storage_has. destruct (w_comps w1 !! u) as [st|] eqn:Est; [|done].
  destruct (gd_st w1 G1 u st Est) as [_ W]. split; [apply exist_lookup; [done|by eexists]|].
  apply Ho, Hr. apply bool_decide_eq_true. by eexists.
Qed.

Lemma zero_entities w : good w -> (forall t, wvalue w t 0 = None) -> forall t st, w_comps w !! t = Some st -> 0 ∉ entities (st_set st).
Proof.
  intros G H0 t st E Hin. destruct (gd_st w G t st E) as [_ W]. specialize (H0 t). unfold wvalue in H0. rewrite E in H0.
  apply elem_of_list_lookup in Hin as [k Hk]. apply (wf_pos _ W) in Hk.
  assert (is_Some (ss_lookup (st_set st) 0)) as [? ?]; [|congruence]. apply exist_lookup; [done|]. apply exist_pos. by eexists.
Qed.
Lemma wv_em {A} (m : M em A) w t id : wvalue (on_em m w).2 t id = wvalue w t id.
Proof. unfold on_em. by destruct (m (w_em w)). Qed.
Lemma fmapM_snd {S A B} (f : A -> B) (m : M S A) s : (fmapM f m s).2 = (m s).2.
Proof. unfold fmapM, bind, ret. by destruct (m s) as [[]]. Qed.
Lemma fmapM_fst {S A B} (f : A -> B) (m : M S A) s :
  (fmapM f m s).1 = match (m s).1 with Ret x => Ret (f x) | Panic => Panic | UB => UB | Block => Block end.
Proof. unfold fmapM, bind, ret. by destruct (m s) as [[]]. Qed.
Lemma poke_value w t ty st k v u id : good w -> w_comps w !! t = Some st -> k < length (entities (st_set st)) ->
  wvalue (set_comps (<[t := St ty (ss_poke k v (st_set st))]> (w_comps w)) w) u id =
    if decide (t = u /\ entities (st_set st) !! k = Some id) then Some v else wvalue w u id.
Proof.
  intros G E Hk. destruct (gd_st w G t st E) as [_ W]. rewrite wv_comp. destruct (decide (t = u)) as [<-|]; [|by rewrite decide_False by tauto].
  cbn [st_set]. unfold wvalue. rewrite E. unfold ss_lookup. change (ss_get_index (ss_poke k v (st_set st)) id) with (ss_get_index (st_set st) id).
  unfold ss_poke. cbn [sdata]. destruct (ss_get_index (st_set st) id) as [j|] eqn:Ej.
  - destruct (decide (j = k)) as [->|Hne].
    + rewrite decide_True by (split; [done|by apply (wf_pos _ W)]). apply list_lookup_insert. by rewrite <- (wf_len _ W).
    + rewrite decide_False; [by rewrite list_lookup_insert_ne|]. intros [_ H]. apply (wf_pos _ W) in H. congruence.
  - rewrite decide_False; [done|]. intros [_ H]. apply (wf_pos _ W) in H. congruence.
Qed.
Lemma place_entities w t st : good w -> (forall t, wvalue w t 0 = None) -> w_comps w !! t = Some st ->
  exists l, run_query w (QRef false t) = Ret l /\ l.*1 = entities (st_set st).
Proof.
  intros G H0 E. destruct (same_components w G (zero_entities w G H0)) as (ops & Hh & Hs).
  rewrite (run_query_csame w (after ops) (QRef false t) eq_refl Hs).
  pose proof (exec_init ops (harmless_rules _ _ Hh)) as HR. fold (after ops) in HR.
  pose proof (run_query_order _ _ (QRef false t) HR (plain_fresh _ (QRef false t) eq_refl)) as K.
  specialize (Hs t). rewrite E in Hs. destruct (w_comps (after ops) !! t) as [st'|] eqn:E'; [|done]. destruct Hs as [_ [Hs _]].
  pose proof (R_st _ _ HR t) as S. rewrite E' in S. destruct (a_comps (aexec ops a_init) !! t) as [m|] eqn:Em; [|done].
  assert (a_open (aexec ops a_init) (QRef false t) = Ret tt) as Eo.
  { unfold a_open. cbn. rewrite decide_True; [done|]. unfold registered. rewrite Em. by eexists. }
  rewrite Eo in K. destruct K as (l & Hl & _ & Ho). exists l. split; [done|]. rewrite Ho. cbn. unfold t_order. by rewrite E', Hs.
Qed.
Lemma step_values w (o : op V) t id : good w -> tame w o -> (forall t, wvalue w t 0 = None) ->
  (forall i ord, o = RemoveEntity i ord -> forall u, has_registered u w = true -> u ∈ ord) ->
  effect_on (fun o => (step o w).1) o t id (wvalue w t id) (wvalue (step o w).2 t id).
Proof.
  intros G T H0 Ho. unfold effect_on. destruct o as [t'|t'| |n|i ord|i|t' i v|t' i|lo hi t' vs|t' i|t' i v|t'|t'|t' i|t' i|t'|t' i v|t' k v|k a b|q|q f|r v|r|r v].
  all: try (erewrite read_op_pure by done; reflexivity).
  - (* Register *) cbn [step]. rewrite fmapM_snd. unfold register. rewrite bind_get. destruct (has_registered t' w) eqn:Hr; [by rewrite bind_assert_false|].
    rewrite bind_assert_true by done. unfold put. cbn [fst snd]. rewrite wv_comp. destruct (decide (t' = t)) as [->|]; [|done].
    apply bool_decide_eq_false in Hr. unfold wvalue. destruct (w_comps w !! t) eqn:E; [by destruct Hr; eexists|]. done.
  - (* HasRegistered *) reflexivity.
  - (* CreateEntity *) cbn [step]. rewrite fmapM_snd. unfold create_entity. rewrite <- (wv_em em_allocate w t id). unfold bind, get, lift. 
    destruct (on_em em_allocate w) as [[x| | |] w1]; try done. by destruct (exist x w1) as [[]| | |].
  - (* CreateEntities *) cbn [step]. rewrite fmapM_snd. apply wv_em.
  - (* RemoveEntity *)
    assert ((step (RemoveEntity i ord) w).2 = (remove_entity i ord w).2) as Es by apply fmapM_snd.
    rewrite Es. assert (forall r, (step (RemoveEntity i ord) w).1 = Ret r -> wvalue (remove_entity i ord w).2 t id = if decide (i = id) then None else wvalue w t id) as K.
    { intros r E. assert (exists r', (remove_entity i ord w).1 = Ret r') as [r' E'].
      { cbn [step] in E. rewrite fmapM_fst in E. destruct (remove_entity i ord w).1 as [x| | |]; try discriminate E. by eexists. }
      apply (remove_values i ord w G (Ho i ord eq_refl) r' E'). }
    assert (forall r, r = (step (RemoveEntity i ord) w).1 -> (wvalue (remove_entity i ord w).2 t id = wvalue w t id \/ 
      (i = id /\ yes (step (Exist i) w).1 = true /\ wvalue (remove_entity i ord w).2 t id = None))) as K2.
    { intros _ _. destruct (mv_remove i ord w G) as [_ H]. destruct (H t id) as [H'|[[= ->] H']]; [by left|]. 
      destruct (exist id w) as [[]| | |] eqn:Ex; [|left; rewrite remove_refused by congruence; reflexivity..].
      right. split; [done|]. split; [|done]. cbn [step]. rewrite bind_get. unfold fmapM, lift. by rewrite Ex. }
    specialize (K2 _ eq_refl). revert K. generalize (step (RemoveEntity i ord) w).1. intros [r| | |] K; [by apply (K r)|done..].
  - (* Exist *) cbn [step]. rewrite bind_get. unfold fmapM, lift. by destruct (exist i w).
  - (* Attach *)
    assert ((step (Attach t' i v) w).2 = (attach_component t' i v w).2) as Es by apply fmapM_snd.
    assert (yes (step (Exist i) w).1 = true <-> exist i w = Ret true) as He.
    { cbn [step]. rewrite bind_get. unfold fmapM, lift. destruct (exist i w) as [[]| | |]; cbn; split; congruence. }
    assert (yes (step (HasRegistered t') w).1 = true <-> has_registered t' w = true) as Hr.
    { cbn [step]. rewrite bind_get. unfold ret. cbn. by destruct (has_registered t' w). }
    generalize (step (Attach t' i v) w).1. intros r0. enough (wvalue (step (Attach t' i v) w).2 t id = (if decide (t' = t /\ i = id /\ yes (step (Exist i) w).1 = true /\ yes (step (HasRegistered t') w).1 = true) then Some v else wvalue w t id)) as K by by destruct r0.
    rewrite Es. clear r0 Es. assert (exist i w = Ret true \/ exist i w <> Ret true) as [E1|E1] by (destruct (exist i w) as [[]| | |]; by (left + right)); [destruct (has_registered t' w) eqn:E2|].
    + rewrite attach_values by done. destruct (decide (t' = t /\ i = id)) as [[-> ->]|]; [rewrite decide_True by tauto; done|rewrite decide_False by tauto; done].
    + rewrite attach_refused by tauto. rewrite decide_False by (rewrite Hr; naive_solver). done.
    + rewrite attach_refused by tauto. rewrite decide_False by (rewrite He; naive_solver). done.
  - (* Detach *)
    assert ((step (Detach t' i) w).2 = (detach_component t' i w).2) as Es by apply fmapM_snd.
    rewrite Es, detach_values by done. 
    assert ((step (Detach t' i) w).1 = match (detach_component t' i w).1 with Ret r => Ret (OVal r) | Panic => Panic | UB => UB | Block => Block end) as Er
      by apply fmapM_fst.
    rewrite Er. destruct (detach_component t' i w).1; cbn; destruct (decide _); done.
  - (* BatchAttach *) cbn [step]. rewrite fmapM_snd, fmapM_fst. unfold entities_attach. destruct (length vs =? hi - lo) eqn:El; [|by rewrite bind_assert_false].
    rewrite bind_assert_true by done. apply Nat.eqb_eq in El. rewrite wv_storage by done. destruct (w_comps w !! t') as [st|] eqn:E.
    2:{ unfold storage_mut. by rewrite E. }
    destruct (gd_st w G t' st E) as [Hty W]. cbn [tame] in T.
    assert (forall x, lo <= x < lo + (hi - lo) -> ss_exist (st_set st) x = false) as Hf by (intros x Hx; apply (T x st); [lia|done]).
    rewrite batch_lookup by done.
    assert (exists s', ss_add_batch (seq lo (hi - lo)) vs (st_set st) = (Ret tt, s')) as [s' Es'].
    { unfold ss_add_batch. rewrite bind_get, bind_assert_true by (rewrite seq_length; by apply Nat.eqb_eq). by eexists. }
    unfold storage_mut. rewrite E, Hty, Nat.eqb_refl, Es'. cbn [fst].
    destruct (decide (t' = t)) as [<-|]; [|rewrite decide_False by tauto; done]. unfold wvalue. rewrite E.
    destruct (decide (lo <= id < lo + (hi - lo))); [rewrite decide_True by (split; [done|lia]); done|rewrite decide_False; [done|]]. intros [_ ?]. lia.
  - (* WriteComp *) rewrite (write_op_eq _ t') by done. unfold on_store. destruct (w_comps w !! t') as [st|] eqn:E; [|done].
    destruct (gd_st w G t' st E) as [Hty W]. cbn [write_fun]. rewrite Hty, Nat.eqb_refl. destruct (ss_exist (st_set st) i) eqn:Ex; [|done].
    apply exist_pos in Ex as [k Hk]. pose proof (proj1 (wf_pos _ W _ _) Hk) as Hk'. pose proof (lookup_lt_Some _ _ _ Hk') as Hlt.
    rewrite (get_unchecked_wf _ _ _ W Hk). cbn [fst snd]. erewrite poke_value by done.
    destruct (decide (t' = t /\ i = id)) as [[<- <-]|Hne]; [by rewrite decide_True|]. rewrite decide_False; [done|]. intros [? ?]. apply Hne. split; [done|congruence].
  - (* StoreGetMut *) rewrite (write_op_eq _ t') by done. unfold on_store. destruct (w_comps w !! t') as [st|] eqn:E; [|done].
    destruct (gd_st w G t' st E) as [Hty W]. cbn [write_fun]. rewrite Hty, Nat.eqb_refl, (get_loc_wf _ _ W).
    destruct (ss_get_index (st_set st) i) as [k|] eqn:Hk; [|done]. pose proof (proj1 (wf_pos _ W _ _) Hk) as Hk'. pose proof (lookup_lt_Some _ _ _ Hk') as Hlt.
    cbn [fst snd]. erewrite poke_value by done.
    destruct (decide (t' = t /\ i = id)) as [[<- <-]|Hne]; [by rewrite decide_True|]. rewrite decide_False; [done|]. intros [? ?]. apply Hne. split; [done|congruence].
  - (* StoreDataSet *) rewrite (write_op_eq _ t') by done. unfold on_store. destruct (w_comps w !! t') as [st|] eqn:E; [|done].
    destruct (gd_st w G t' st E) as [Hty W]. cbn [write_fun]. rewrite Hty, Nat.eqb_refl. destruct (k <? length (sdata (st_set st))) eqn:Hk; [|done].
    apply Nat.ltb_lt in Hk. rewrite <- (wf_len _ W) in Hk. cbn [fst snd]. erewrite poke_value by done.
    unfold at_place. cbn [step]. rewrite bind_get, fmapM_fst. unfold lift. cbn [fst]. destruct (place_entities w t' st G H0 E) as (l & -> & ->). done.
  - (* MakeGroup *)
    assert ((step (MakeGroup k a b) w).2 = (make_group k a b w).2) as Es by apply fmapM_snd.
    rewrite Es. by apply make_values.
  - (* Query *) cbn [step]. rewrite bind_get. unfold fmapM, lift. by destruct (run_query w q).
  - (* QueryMut *) cbn [tame] in T. destruct (same_components w G (zero_entities w G H0)) as (ops & Hh & Hs).
    pose proof (exec_init ops (harmless_rules _ _ Hh)) as HR. fold (after ops) in HR.
    destruct (step_ok _ _ (QueryMut q f) HR (plain_fresh _ _ T)) as [O HR'].
    pose proof (val_step _ _ (QueryMut q f) _ HR (plain_fresh _ _ T) O t id) as K. rewrite <- (wvalue_comp _ _ t id HR), <- (wvalue_comp _ _ t id HR') in K.
    destruct (query_mut_csame q f w (after ops) T Hs) as [E1 E2].
    rewrite <- (wvalue_csame _ _ t id Hs) in K. cbn [step] in K |- *. rewrite fmapM_snd, fmapM_fst in *. rewrite <- (wvalue_csame _ _ t id E2), <- E1 in K.
    rewrite K. unfold comp_event. destruct (run_query_mut q f w).1; reflexivity.
  - reflexivity.
  - cbn [step]. rewrite fmapM_snd. unfold resource_read. rewrite bind_get. destruct (w_res w !! r) as [x|]; [|done]. by destruct (rv_ty x =? r).
  - cbn [step]. rewrite fmapM_snd. unfold resource_write. rewrite bind_get. destruct (w_res w !! r) as [x|]; [|done]. by destruct (rv_ty x =? r).
  Unshelve.
Qed.
End values.

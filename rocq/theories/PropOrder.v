(** C53: the order of the components of a type in no group; C05, C06, C16, C17,
    C47, C48 without the rules of use. *)
From stdpp Require Import prelude list gmap.
From Verif Require Import Base Api ModelSparse ModelEntity ModelGroup ModelWorld ModelQuery ModelStep
  Spec History Rules SpecLoose SpecOrder ProofSparse ProofEntity ProofGroup ProofWorld ProofOps ProofRemove ProofMain ProofHistory ProofHistory2 ProofWf ProofConc4 ProofConc5 ProofConc9 ProofEm ProofLoose ProofLoose2
  PropEntity PropComp PropWorld PropGroup PropTerm PropLoose PropLooseEnt.

Section frame.
Context {V : Type}.
Implicit Types (ops : list (op V)) (t id : nat) (v : V) (w : world V).

Definition free t w : Prop := forall k a b, (k, a, b) ∈ groups_in w -> a <> t /\ b <> t.
Definition ents t w : option (list nat) := (fun st => entities (st_set st)) <$> w_comps w !! t.
Lemma free_keeps t w w' : keeps w w' -> free t w -> free t w'.
Proof. intros [_ K _] H. unfold free, groups_in. by rewrite K. Qed.
Lemma free_with t w : free t w -> groups_with t (w_groups w) 0 = [].
Proof.
  intros H. assert (forall gs n, (forall g, g ∈ gs -> (g_types g).1 <> t /\ (g_types g).2 <> t) -> groups_with t gs n = []) as K.
  { induction gs as [|g gs IH]; intros n Hg; [done|]. cbn [groups_with]. destruct (Hg g) as [H1 H2]; [left|]. destruct (g_types g) as [a b]. cbn [fst snd] in *.
    rewrite (proj2 (Nat.eqb_neq _ _) H1), (proj2 (Nat.eqb_neq _ _) H2). apply IH. intros h Hh. apply Hg. by right. }
  apply K. intros g Hg. rewrite types_static. cbn [fst snd].
  assert (g_static g ∈ groups_in w) as Hin by (by apply elem_of_list_fmap_1). destruct (g_static g) as [[k a] b]. by apply (H k a b).
Qed.
(** programs that leave the storage of [t] alone if no group has it *)
Definition off {A} t (m : M (world V) A) : Prop := forall w, free t w -> w_comps (m w).2 !! t = w_comps w !! t.
Lemma off_bind {A B} t (m : M (world V) A) (k : A -> M (world V) B) : pres m -> off t m -> (forall a, off t (k a)) -> off t (bind m k).
Proof.
  intros P Hm Hk w F. unfold bind. pose proof (free_keeps t _ _ (P w) F) as F1. pose proof (Hm w F) as H1.
  destruct (m w) as [[a| | |] w1]; cbn [fst snd] in *; try done. by rewrite (Hk a w1 F1).
Qed.
Lemma off_each {A} t (l : list A) f : (forall a, pres (f a)) -> (forall a, off t (f a)) -> off t (for_each l f).
Proof. intros P H. induction l as [|a l IH]; [done|]. cbn [for_each]. by apply off_bind. Qed.
Lemma off_group t i ff fp fn : off t (run_group_at i ff fp fn).
Proof.
  intros w F. unfold run_group_at. destruct (w_groups w !! i) as [g|] eqn:Hi; [|done].
  assert (g_static g ∈ groups_in w) as Hin by (apply elem_of_list_fmap_1; by eapply elem_of_list_lookup_2).
  destruct g as [d|d|d]; cbn [g_static] in Hin; destruct (F _ _ _ Hin) as [Ha Hb].
  all: repeat match goal with
       | |- context [match w_comps ?w' !! ?x with _ => _ end] => let H := fresh "E" in destruct (w_comps w' !! x) eqn:H; try reflexivity
       | |- context [if ?x =? ?y then _ else _] => destruct (x =? y); [done|]
       end.
  all: try reflexivity.
  all: match goal with |- context [match ?e with (_, _) => _ end] => destruct e end; cbn [snd set_groups set_comps w_comps]; by rewrite ?lookup_insert_ne by done.
Qed.
Lemma pres_add i id : pres (run_group_at (V := V) i (full_add id) (part_add id) (non_add id)).
Proof. apply pres_run_group; [apply gp_full_add|apply gp_part_add|apply gp_non_add]. Qed.
Lemma pres_leave i id : pres (run_group_at (V := V) i (full_remove id) (part_remove id) (non_remove id)).
Proof. apply pres_run_group; [apply gp_full_remove|apply gp_part_remove|apply gp_non_remove]. Qed.
Lemma pres_kill i e : pres (run_group_at (V := V) i
  (full_remove e >>! on_a (cs_remove e) >>! on_b (cs_remove e)) (part_remove e >>! on_a (cs_remove e)) (non_remove e)).
Proof.
  apply pres_run_group; [| |apply gp_non_remove].
  - apply gpres_bind; [apply gp_full_remove|]. intros _. apply gpres_bind; [apply gpres_on_a|]. intros _ c. apply gpres_on_b.
  - apply gpres_bind; [apply gp_part_remove|]. intros _ c. apply gpres_on_a.
Qed.

(** the second loop of remove_entity *)
Definition gone e (st : storage V) : storage V := St (st_ty st) (cs_remove e (st_set st)).2.
Lemma cs_remove_has e (s : sset V) : ss_wf s -> ss_exist s e = true -> (cs_remove e s).1 = Ret tt /\ entities (cs_remove e s).2 = swap_out e (entities s).
Proof.
  intros W Ex. apply exist_pos in Ex as [i Hi]. destruct (ProofSparse.remove_spec e i s W Hi) as (v & s' & E & _ & _ & _ & _ & (el & El & Ee)).
  unfold cs_remove, bind. rewrite E. cbn. split; [done|]. rewrite Ee. unfold swap_out.
  pose proof (proj1 (wf_pos s W e i) Hi) as Hk. destruct (list_find (fun x => x = e) (entities s)) as [[j y]|] eqn:Ef.
  - apply list_find_Some in Ef as (Hj & -> & _). assert (j = i) as ->.
    { apply (wf_pos s W) in Hj. congruence. } by rewrite El.
  - apply list_find_None in Ef. rewrite Forall_forall in Ef. exfalso. by eapply Ef; [by eapply elem_of_list_lookup_2|].
Qed.
Lemma drops e l : forall w, good w -> NoDup l -> (forall t, t ∈ l -> storage_has w e t = true) ->
  exists m, for_each l (fun t => dyn_mut t (cs_remove e)) w = (Ret tt, set_comps m w) /\
    forall t, m !! t = if decide (t ∈ l) then gone e <$> w_comps w !! t else w_comps w !! t.
Proof.
  induction l as [|a l IH]; intros w G N H.
  - exists (w_comps w). split; [by destruct w|]. intros t. rewrite decide_False; [done|]. apply not_elem_of_nil.
  - apply NoDup_cons in N as [Na N]. cbn [for_each]. pose proof (H a ltac:(left)) as Ha. unfold storage_has in Ha.
    destruct (w_comps w !! a) as [st|] eqn:Ea; [|done]. destruct (gd_st w G a st Ea) as [Hty W].
    destruct (cs_remove_has e _ W Ha) as [E1 _]. destruct (mv_drop a e w G) as [G1 _].
    assert (dyn_mut a (cs_remove e) w = (Ret tt, set_comps (<[a := gone e st]> (w_comps w)) w)) as Ed.
    { unfold dyn_mut. rewrite Ea. unfold gone. destruct (cs_remove e (st_set st)) as [r s']. cbn [fst snd] in *. by subst r. }
    rewrite Ed in G1. cbn [snd] in G1. destruct (IH _ G1 N) as (m & Em & Hm).
    { intros t Ht. specialize (H t ltac:(by right)). unfold storage_has in *. cbn [set_comps w_comps]. rewrite lookup_insert_ne; [done|]. by intros ->. }
    exists m. split; [unfold bind; by rewrite Ed, Em|]. intros t. rewrite Hm. cbn [set_comps w_comps]. destruct (decide (t = a)) as [->|Hne].
    + rewrite decide_False by done. rewrite lookup_insert, decide_True by left. by rewrite Ea.
    + rewrite lookup_insert_ne by done. destruct (decide (t ∈ l)); [rewrite decide_True by (by right)|rewrite decide_False by (rewrite elem_of_cons; tauto)]; done.
Qed.

(** ** C17 *)
(** remove_entity does not depend on the order in which the table of storages
    is enumerated, in no history. *)
Theorem C17_any_history ops id ord ord' : loose ops -> NoDup ord -> ord ≡ₚ ord' ->
  step (RemoveEntity id ord) (after ops) = step (RemoveEntity id ord') (after ops).
Proof.
  intros L N P. destruct (loose_inv _ L) as (G & _). assert (remove_entity id ord (after ops) = remove_entity id ord' (after ops)) as E.
  2:{ cbn [step]. unfold fmapM, bind. by rewrite E. }
  revert G. generalize (after ops) as w. clear L ops. intros w G. unfold remove_entity. rewrite !bind_get.
  destruct (exist id w) as [b| | |]; try done. rewrite !bind_lift. destruct b; [rewrite !bind_assert_true by done|by rewrite !bind_assert_false by done].
  destruct (collect_in_group w id (w_groups w) 0) as [gs| | |]; try done. rewrite !bind_lift.
  destruct (mv_each (Some id) gs _ (fun j => mv_kill j id) w G) as [G1 _].
  match goal with |- bind ?m ?f w = bind ?m ?g w => change (match m w with (Ret a, s) => f a s | (Panic, s) => (Panic, s) | (UB, s) => (UB, s) | (Block, s) => (Block, s) end = match m w with (Ret a, s) => g a s | (Panic, s) => (Panic, s) | (UB, s) => (UB, s) | (Block, s) => (Block, s) end) end.
  destruct (for_each gs _ w) as [[[]| | |] w1]; try done. cbn [snd] in G1. rewrite !bind_get.
  destruct (drops id (storages_with w1 id ord) w1 G1) as (m & E & Hm); [by apply NoDup_filter|by intros t [? _]%elem_of_list_filter|].
  destruct (drops id (storages_with w1 id ord') w1 G1) as (m' & E' & Hm'); [apply NoDup_filter; by rewrite <- P|by intros t [? _]%elem_of_list_filter|].
  unfold bind. rewrite E, E'. assert (m = m') as ->; [|done]. apply map_eq. intros t. rewrite Hm, Hm'.
  assert (t ∈ storages_with w1 id ord <-> t ∈ storages_with w1 id ord') as K by (unfold storages_with; rewrite !elem_of_list_filter, P; done).
  destruct (decide _), (decide _); tauto.
Qed.

Lemma rewritten_ents t w w' : rewritten w w' -> ents t w' = ents t w.
Proof.
  intros (_ & _ & H & _). specialize (H t). unfold ents. destruct (w_comps w !! t), (w_comps w' !! t); cbn in *; try done. by injection H as _ ->.
Qed.
Lemma off_ents {A} t (m : M (world V) A) w : off t m -> free t w -> ents t (m w).2 = ents t w.
Proof. intros H F. unfold ents. by rewrite (H w F). Qed.
Lemma storage_ents {A} u t (m : M (sset V) A) w : u <> t -> ents t (storage_mut u m w).2 = ents t w.
Proof.
  intros H. unfold storage_mut, ents. destruct (w_comps w !! u) as [st|]; [|done]. destruct (st_ty st =? u); [|done].
  destruct (m (st_set st)). cbn. by rewrite lookup_insert_ne.
Qed.
Lemma storage_ents_same {A} t (m : M (sset V) A) w st : good w -> w_comps w !! t = Some st ->
  (storage_mut t m w).1 = (m (st_set st)).1 /\ ents t (storage_mut t m w).2 = Some (entities (m (st_set st)).2).
Proof.
  intros G E. destruct (gd_st w G t st E) as [Hty _]. unfold storage_mut, ents. rewrite E, Hty, Nat.eqb_refl.
  destruct (m (st_set st)) as [r s']. cbn. by rewrite lookup_insert.
Qed.
Lemma exist_entities (s : sset V) e : ss_wf s -> ss_exist s e = true <-> e ∈ entities s.
Proof.
  intros W. rewrite exist_pos, elem_of_list_lookup. split; [intros [i Hi]|intros [i Hi]]; exists i; by apply (wf_pos s W).
Qed.
Lemma swap_out_absent e l : e ∉ l -> swap_out e l = l.
Proof.
  intros H. unfold swap_out. destruct (list_find (fun x => x = e) l) as [[j y]|] eqn:Ef; [|done].
  apply list_find_Some in Ef as (Hj & -> & _). destruct H. by eapply elem_of_list_lookup_2.
Qed.
Lemma remove_entities (s : sset V) e r s' : ss_wf s -> ss_remove e s = (r, s') ->
  entities s' = match r with Ret _ => swap_out e (entities s) | _ => entities s end.
Proof.
  intros W E. destruct (ss_get_index s e) as [i|] eqn:Ei.
  - destruct (cs_remove_has e s W) as [E1 E2]; [apply exist_pos; by eexists|]. destruct (ProofSparse.remove_spec e i s W Ei) as (v & s2 & Er & _).
    rewrite Er in E. injection E as <- <-. rewrite <- E2. unfold cs_remove, bind. by rewrite Er.
  - destruct (decide (e = length (indices s))) as [He|He].
    + rewrite (remove_spec_Panic e s He) in E. by injection E as <- <-.
    + rewrite (remove_spec_None e s Ei He) in E. injection E as <- <-. symmetry. apply swap_out_absent.
      rewrite <- exist_entities by done. apply exist_pos_false in Ei. by rewrite Ei.
Qed.
Lemma attach_ents t u id v w l : good w -> free t w -> ents t w = Some l ->
  ents t (attach_component u id v w).2 = Some (match (attach_component u id v w).1 with
    | Ret _ => if decide (u = t) then if decide (id ∈ l) then l else l ++ [id] else l | _ => l end).
Proof.
  intros G F E. unfold attach_component. rewrite bind_get. destruct (exist id w) as [b| | |]; try done. rewrite bind_lift.
  destruct b; [rewrite bind_assert_true by done|by rewrite bind_assert_false]. unfold entity_attach. rewrite bind_get.
  destruct (has_registered u w) eqn:Hr; [rewrite bind_assert_true by done|by rewrite bind_assert_false].
  pose proof (pres_storage_mut u (ss_add id v) w) as P1. destruct (decide (u = t)) as [->|Hne].
  - unfold ents in E. destruct (w_comps w !! t) as [st|] eqn:Est; [|done]. injection E as <-.
    destruct (storage_ents_same t (ss_add id v) w st G Est) as [E1 E2]. destruct (gd_st w G t st Est) as [_ W].
    destruct (add_spec id v _ W) as (s' & Ea & _ & _ & _ & _ & Ee & _). rewrite Ea in E1, E2. cbn [fst snd] in *.
    pose proof (free_keeps t _ _ P1 F) as F1. unfold bind at 1 3. destruct (storage_mut t (ss_add id v) w) as [r w1]. cbn [fst snd] in *. subst r.
    rewrite !bind_get, (free_with t w1 F1). cbn. rewrite E2, Ee. f_equal. pose proof (exist_entities (st_set st) id W) as K.
    destruct (ss_exist (st_set st) id); [rewrite decide_True by tauto; done|]. rewrite decide_False; [done|]. intros ?. destruct K as [_ K]. by discriminate (K ltac:(done)).
  - assert (ents t (bind (storage_mut u (ss_add id v)) (fun _ => let! w := get in for_each (groups_with u (w_groups w) 0) (fun i =>
      run_group_at i (full_add id) (part_add id) (non_add id))) w).2 = Some l) as ->.
    2:{ by destruct (_ : outcome unit). }
    unfold bind at 1. pose proof (storage_ents u t (ss_add id v) w Hne) as E1. pose proof (free_keeps t _ _ P1 F) as F1.
    destruct (storage_mut u (ss_add id v) w) as [[x| | |] w1]; cbn [fst snd] in *; try congruence. rewrite bind_get.
    rewrite (off_ents t); [congruence| |done]. apply off_each; [intros; apply pres_add|intros; apply off_group].
Qed.
Lemma detach_ents t u id w l : good w -> free t w -> ents t w = Some l ->
  ents t (detach_component u id w).2 = Some (match (detach_component u id w).1 with
    | Ret _ => if decide (u = t) then swap_out id l else l | _ => l end).
Proof.
  intros G F E. unfold detach_component. rewrite bind_get. destruct (exist id w) as [b| | |]; try done. rewrite bind_lift.
  destruct b; [rewrite bind_assert_true by done|by rewrite bind_assert_false]. unfold entity_detach. rewrite bind_get.
  destruct (has_registered u w) eqn:Hr; [rewrite bind_assert_true by done|by rewrite bind_assert_false].
  destruct (decide (u = t)) as [->|Hne].
  - rewrite (free_with t w F). match goal with |- context [bind (for_each [] ?f) ?k w] => change (bind (for_each [] f) k w) with (k tt w) end. cbv beta. unfold ents in E. destruct (w_comps w !! t) as [st|] eqn:Est; [|done]. injection E as <-.
    destruct (storage_ents_same t (ss_remove id) w st G Est) as [E1 E2]. destruct (gd_st w G t st Est) as [_ W].
    rewrite E1, E2. destruct (ss_remove id (st_set st)) as [r s'] eqn:Er. cbn [fst snd]. f_equal. by apply remove_entities.
  - match goal with |- ents t (?m w).2 = _ => assert (ents t (m w).2 = Some l) as -> end.
    2:{ by destruct (_ : outcome (option V)). }
    unfold bind. match goal with |- context [for_each ?gs ?f w] =>
      assert (pres (for_each gs f)) as P1 by (apply pres_for_each; intros; apply pres_leave);
      assert (off t (for_each gs f)) as O1 by (apply off_each; [intros; apply pres_leave|intros; apply off_group]) end.
    pose proof (off_ents t _ w O1 F) as E1. specialize (P1 w).
    destruct (for_each _ _ w) as [[x| | |] w1]; cbn [fst snd] in *; try congruence. rewrite storage_ents by done. congruence.
Qed.

Lemma remove_ents t i ord w l : good w -> free t w -> NoDup ord -> t ∈ ord -> ents t w = Some l ->
  (exist i w = Ret true -> exists e, em_remove i (w_em w) = (Ret tt, e)) ->
  ents t (remove_entity i ord w).2 = Some (match (remove_entity i ord w).1 with Ret _ => swap_out i l | _ => l end).
Proof.
  intros G F N Ht E Hem. destruct (remove_entity i ord w) as [r w'] eqn:Er. cbn [fst snd]. unfold remove_entity in Er. rewrite bind_get in Er.
  destruct (exist i w) as [b| | |]; try (by injection Er as <- <-). rewrite bind_lift in Er.
  destruct b; [rewrite bind_assert_true in Er by done|rewrite bind_assert_false in Er by done; by injection Er as <- <-].
  destruct (collect_in_group w i (w_groups w) 0) as [gs| | |]; try (by injection Er as <- <-). rewrite bind_lift in Er. unfold bind at 1 in Er.
  destruct (mv_each (Some i) gs _ (fun j => mv_kill j i) w G) as [G1 _].
  pose proof (pres_for_each gs _ (fun j => pres_kill j i) w) as P1.
  pose proof (off_ents t _ w (off_each t gs _ (fun j => pres_kill j i) (fun j => off_group t j _ _ _)) F) as E1.
  pose proof (keeps_each gs _ (fun j => ProofEm.keeps_group (V := V) j (full_remove i >>! on_a (cs_remove i) >>! on_b (cs_remove i)) (part_remove i >>! on_a (cs_remove i)) (non_remove i)) w) as K1.
  destruct (for_each gs _ w) as [[[]| | |] w1]; cbn [fst snd] in *; try (injection Er as <- <-; congruence).
  rewrite bind_get in Er. unfold bind in Er.
  destruct (drops i (storages_with w1 i ord) w1 G1) as (m & Em & Hm); [by apply NoDup_filter|by intros u [? _]%elem_of_list_filter|].
  rewrite Em in Er. unfold on_em in Er. cbn [w_em set_comps] in Er. rewrite K1 in Er. destruct (Hem eq_refl) as [e Ee]. rewrite Ee in Er. injection Er as <- <-.
  unfold ents. cbn [w_comps set_em set_comps]. rewrite Hm. unfold ents in E1, E. rewrite E in E1. destruct (w_comps w1 !! t) as [st|] eqn:Est; [|done].
  cbn in E1. injection E1 as El. destruct (gd_st w1 G1 t st Est) as [_ W]. subst l.
  destruct (decide (t ∈ storages_with w1 i ord)) as [Hin|Hin].
  - apply elem_of_list_filter in Hin as [Hin _]. unfold storage_has in Hin. rewrite Est in Hin. cbn. f_equal. by apply cs_remove_has.
  - cbn. f_equal. symmetry. apply swap_out_absent. intros Hi. apply Hin, elem_of_list_filter. split; [|done].
    unfold storage_has. rewrite Est. by apply exist_entities.
Qed.
Lemma batch_ents t lo hi u vs w l : good w -> ents t w = Some l ->
  ents t (entities_attach lo hi u vs w).2 = Some (match (entities_attach lo hi u vs w).1 with
    | Ret _ => if decide (u = t) then l ++ seq lo (hi - lo) else l | _ => l end).
Proof.
  intros G E. unfold entities_attach. destruct (length vs =? hi - lo) eqn:El; [rewrite bind_assert_true by done|by rewrite bind_assert_false].
  destruct (decide (u = t)) as [->|Hne]; [|rewrite storage_ents by done; by destruct (storage_mut u _ w).1].
  unfold ents in E. destruct (w_comps w !! t) as [st|] eqn:Est; [|done]. injection E as <-.
  destruct (storage_ents_same t (ss_add_batch (seq lo (hi - lo)) vs) w st G Est) as [E1 E2]. rewrite E1, E2.
  unfold ss_add_batch. rewrite bind_get, bind_assert_true; [done|]. by rewrite seq_length, Nat.eqb_sym.
Qed.
Lemma make_ents t k a b w : free t w -> a <> t -> b <> t -> w_comps (make_group k a b w).2 !! t = w_comps w !! t.
Proof.
  intros F Ha Hb. unfold make_group. rewrite bind_get.
  destruct (negb (has_group _ w)); [rewrite bind_assert_true by done|by rewrite bind_assert_false].
  destruct (negb (owner_conflict _ w)); [rewrite bind_assert_true by done|by rewrite bind_assert_false].
  rewrite bind_put. rewrite off_group; [done|]. unfold free, groups_in. cbn [set_groups w_groups]. rewrite fmap_app. cbn [fmap list_fmap]. rewrite new_group_static.
  intros k' a' b' [H|H]%elem_of_app; [by apply (F k')|]. apply elem_of_list_singleton in H. by injection H as -> -> ->.
Qed.
Lemma free_snoc ops o t : free t (after ops) -> (forall k a b, o = MakeGroup k a b -> a <> t /\ b <> t) -> free t (after (ops ++ [o])).
Proof.
  intros F H. assert ((exists k a b, o = MakeGroup k a b) \/ forall k a b, o <> MakeGroup k a b) as [(k & a & b & ->)|Ho] by (destruct o; first [by right|left; by do 3 eexists]).
  - destruct (C27_refused_iff ops k a b) as [C1 C2]. destruct (H k a b eq_refl) as [Ha Hb].
    destruct (has_group (new_group k a b) (after ops) || owner_conflict (new_group k a b) (after ops)) eqn:C.
    + rewrite after_snoc, C1; [done|]. apply clash_iff. by apply orb_true_iff in C.
    + apply orb_false_iff in C as [X Y]. unfold free. rewrite C2 by (rewrite <- clash_iff; intros [?|?]; congruence).
      intros k' a' b' [K|K]%elem_of_app; [by apply (F k')|]. apply elem_of_list_singleton in K. by injection K as -> -> ->.
  - unfold free. by rewrite C27_only_make_group.
Qed.
Lemma never_free ops t : never_grouped ops t -> free t (after ops).
Proof.
  induction ops as [|o ops IH] using rev_ind; intros H; [by intros ? ? ? ?%elem_of_nil|]. apply free_snoc.
  - apply IH. intros k a b Hin. apply (H k). apply elem_of_app. by left.
  - intros k a b ->. apply (H k). apply elem_of_app. right. left.
Qed.
Lemma tidy_removes ops i ord : tidy (ops ++ [RemoveEntity i ord]) -> exist i (after ops) = Ret true ->
  exists e, em_remove i (w_em (after ops)) = (Ret tt, e) /\ i ∈ alive (seen ops) /\ forall j, 1 <= j -> j <> i -> em_has e j = em_has (w_em (after ops)) j.
Proof.
  intros T Hex. apply tidy_snoc in T as [T To]. destruct (To i ord eq_refl) as [H1 H2].
  destruct (shadow ops T) as (ops' & L & Hc & Hg & He & (Ha & Hw & Hh) & _).
  assert (exist i (after ops') = Ret true) as Hex' by (unfold exist in *; by rewrite <- He).
  pose proof (remove_bare i _ Hc Hg Hex') as Er. destruct (reached ops' L) as [HR A].
  rewrite Hw, (ag_wait _ _ A) in H2. rewrite (exist_spec _ _ i HR H1) in Hex'. unfold a_exist in Hex'. case_decide as C; [done|].
  injection Hex' as Hex'%bool_decide_eq_true. destruct Hex' as [Hf|?]; [|done].
  assert (i ∈ alive (seen ops')) as Hl. { apply (ag_alive _ _ A). split; [unfold allocated; lia|done]. }
  destruct (C16_remove_exact ops' i [] L Hl) as (K & _ & _ & Kx & _).
  { split; [constructor|]. intros t. split; [by intros ?%elem_of_nil|]. intros Ht. apply (ag_reg _ _ A) in Ht as [m Hm].
    pose proof (R_st _ _ HR t) as S. rewrite Hm, Hc, lookup_empty in S. done. }
  unfold answer in K. cbn [step] in K. rewrite fmapM_fst, Er in K. unfold on_em in K. rewrite <- He in K.
  destruct (em_remove i (w_em (after ops))) as [[[]| | |] e] eqn:Em; cbn in K; try discriminate K. exists e. split; [done|]. split; [by rewrite Ha|].
  intros j Hj Hne. specialize (Kx j Hj Hne). unfold answer in Kx. rewrite after_snoc in Kx. cbn [step] in Kx. rewrite fmapM_snd, Er in Kx.
  unfold on_em in Kx. rewrite <- He, Em in Kx. cbn [snd] in Kx. rewrite !bind_get, !fmapM_fst in Kx. unfold lift, exist in Kx. cbn [fst w_em set_em] in Kx. rewrite <- He in Kx.
  destruct (em_has e j), (em_has (w_em (after ops)) j); cbn in Kx; congruence.
Qed.
Lemma order_step ops o t l : loose (ops ++ [o]) -> tidy (ops ++ [o]) -> once (ops ++ [o]) -> never_grouped (ops ++ [o]) t ->
  ents t (after ops) = Some l -> ents t (after (ops ++ [o])) = Some (order_event t l (o, answer ops o)).
Proof.
  intros L T O F E. pose proof L as [L' Lo]%loose_snoc. destruct (loose_inv _ L') as (G & _).
  assert (free t (after ops)) as F'. { apply never_free. intros k a b Hin. apply (F k). apply elem_of_app. by left. }
  assert (o ∈ ops ++ [o]) as Ho by (apply elem_of_app; right; left).
  rewrite after_snoc. unfold answer. destruct o as [t'|t'| |n|i ord|i|t' i v|t' i|lo hi t' vs|t' i|t' i v|t'|t'|t' i|t' i|t'|t' i v|t' k v|k a b|q|q f|r v|r|r v].
  all: try (erewrite read_op_pure by done; exact E).
  all: try (erewrite rewritten_ents by (by eapply write_op_rewritten); exact E).
  - cbn [step order_event]. rewrite fmapM_snd. unfold register. rewrite bind_get. destruct (has_registered t' (after ops)) eqn:Hr; [by rewrite bind_assert_false|].
    rewrite bind_assert_true by done. cbn. unfold ents. cbn. destruct (decide (t' = t)) as [->|]; [|by rewrite lookup_insert_ne].
    unfold has_registered in Hr. apply bool_decide_eq_false in Hr. unfold ents in E. destruct (w_comps (after ops) !! t); [|done]. by destruct Hr.
  - exact E.
  - cbn [step order_event]. destruct (create_bare (after ops)) as [B _]. cbn [step] in B. unfold ents. by rewrite B.
  - cbn [step order_event]. destruct (creates_bare n (after ops)) as [B _]. cbn [step] in B. unfold ents. by rewrite B.
  - cbn [step order_event]. rewrite fmapM_snd, fmapM_fst. rewrite (remove_ents t i ord (after ops) l); try done.
    + by destruct (remove_entity i ord (after ops)).1.
    + by apply (O i ord).
    + apply Lo. rewrite answer_has. unfold has_registered. unfold ents in E. destruct (w_comps (after ops) !! t); [|done]. by rewrite bool_decide_true.
    + intros Hx. destruct (tidy_removes ops i ord T Hx) as (e & ? & _). by exists e.
  - cbn [step order_event]. rewrite bind_get, fmapM_snd. exact E.
  - cbn [step order_event]. rewrite fmapM_snd, fmapM_fst. rewrite (attach_ents t t' i v (after ops) l) by done.
    by destruct (attach_component t' i v (after ops)).1.
  - cbn [step order_event]. rewrite fmapM_snd, fmapM_fst. rewrite (detach_ents t t' i (after ops) l) by done.
    by destruct (detach_component t' i (after ops)).1.
  - cbn [step order_event]. rewrite fmapM_snd, fmapM_fst. rewrite (batch_ents t lo hi t' vs (after ops) l) by done.
    by destruct (entities_attach lo hi t' vs (after ops)).1.
  - cbn [step order_event]. rewrite fmapM_snd. destruct (F k a b Ho) as [Ha Hb]. unfold ents. by rewrite make_ents.
  - rewrite query_keeps. exact E.
  - cbn [step order_event]. rewrite fmapM_snd. erewrite rewritten_ents; [exact E|]. unfold run_query_mut. destruct (query_open (after ops) q []) as [[J| | |] x]; try apply rewritten_refl. apply rewritten_drive.
  - exact E.
  - cbn [step order_event]. rewrite fmapM_snd. unfold resource_read, bind, get. destruct (w_res (after ops) !! r) as [x|]; [|exact E]. by destruct (rv_ty x =? r).
  - cbn [step order_event]. rewrite fmapM_snd. unfold resource_write, bind, get. destruct (w_res (after ops) !! r) as [x|]; [|exact E]. by destruct (rv_ty x =? r).
Qed.

Lemma order_inv ops t : loose ops -> tidy ops -> once ops -> never_grouped ops t -> order_of (seen ops) t = default [] (ents t (after ops)).
Proof.
  induction ops as [|o ops IH] using rev_ind; intros L T O F; [done|]. pose proof L as [L' Lo]%loose_snoc. pose proof T as [T' _]%tidy_snoc.
  assert (never_grouped ops t) as F' by (intros k a b Hin; apply (F k), elem_of_app; by left).
  assert (once ops) as O' by (intros i ord Hin; apply (O i), elem_of_app; by left).
  specialize (IH L' T' O' F'). rewrite seen_snoc. unfold order_of in *. rewrite foldl_app. cbn [foldl]. rewrite IH. destruct (ents t (after ops)) as [l|] eqn:E.
  { by rewrite (order_step ops o t l L T O F E). }
  assert (w_comps (after ops) !! t = None) as En by (unfold ents in E; by destruct (w_comps (after ops) !! t)).
  assert (answer ops (HasRegistered t) = Ret (OBool false)) as Hr by (rewrite answer_has; unfold has_registered; by rewrite En).
  cbn [default]. assert (order_event t [] (o, answer ops o) = []) as ->.
  { destruct o; try done; cbn [order_event].
    - by destruct (answer ops (RemoveEntity id ord)).
    - destruct (answer ops (Attach t0 id v)) eqn:Ea; try done. apply attach_ret in Ea as [_ Ea]. destruct (decide (t0 = t)) as [->|]; [|done]. rewrite Hr in Ea. discriminate Ea.
    - destruct (answer ops (Detach t0 id)); try done. by destruct (decide _).
    - destruct (answer ops (BatchAttach lo hi t0 vs)) eqn:Ea; try done. destruct (decide (t0 = t)) as [->|]; [|done].
      exfalso. unfold answer in Ea. cbn [step] in Ea. rewrite fmapM_fst in Ea. unfold entities_attach, bind, assert, storage_mut in Ea.
      destruct (length vs =? hi - lo); [|discriminate Ea]. cbn in Ea. rewrite En in Ea. discriminate Ea. }
  rewrite after_snoc. destruct (special o) eqn:Es.
  - assert (free t (after ops)) as Fr by (by apply never_free). destruct o; try done.
    + cbn [step]. rewrite fmapM_snd. unfold register. rewrite bind_get. destruct (negb _); [rewrite bind_assert_true by done|rewrite bind_assert_false by done; exact (eq_sym (f_equal (default []) E))].
      cbn. unfold ents. cbn. destruct (decide (t0 = t)) as [->|]; [by rewrite lookup_insert|]. rewrite lookup_insert_ne by done. by rewrite En.
    + cbn [step]. rewrite fmapM_snd. destruct (F k a b) as [Ha Hb]; [apply elem_of_app; right; left|]. unfold ents. by rewrite make_ents, En.
    + cbn [step]. rewrite fmapM_snd. exact (eq_sym (f_equal (default []) E)).
    + cbn [step]. rewrite fmapM_snd. unfold resource_write, bind, get. destruct (w_res (after ops) !! r) as [x|]; [|exact (eq_sym (f_equal (default []) E))]. destruct (rv_ty x =? r); exact (eq_sym (f_equal (default []) E)).
  - pose proof (k_tags _ _ (pres_step o Es (after ops)) t) as K. rewrite En in K. unfold ents. by destruct (w_comps (step o (after ops)).2 !! t).
Qed.

(** ** C53 *)
(** The storage of a type that was never put in a group lists its components
    in the order [order_of]: a new one comes last, an entity keeps its place
    until it or one before it leaves, and who leaves is replaced by the last
    one.  [data()], iteration and (by C24) all queries driven by the type
    follow this order. *)
Theorem C53_order ops t : loose ops -> tidy ops -> once ops -> never_grouped ops t ->
  answer ops (HasRegistered t) = Ret (OBool true) ->
  exists vs, layout ops t (order_of (seen ops) t) vs /\ NoDup (order_of (seen ops) t) /\
    Forall2 (fun id v => answer ops (ReadComp t id) = Ret (OVal (Some v))) (order_of (seen ops) t) vs.
Proof.
  intros L T O F Hr. rewrite (order_inv ops t L T O F). destruct (loose_inv _ L) as (G & H0 & _).
  destruct (C21_any_history ops L) as (val & Hv & K). destruct (K t Hr) as (es & vs & La & N & _ & F2 & _).
  assert (es = default [] (ents t (after ops))) as <-.
  { rewrite answer_has in Hr. unfold has_registered in Hr. injection Hr as Hr%bool_decide_eq_true. destruct Hr as [st Hst].
    destruct (place_entities _ t st G H0 Hst) as (l & El & El'). unfold ents. rewrite Hst. cbn. rewrite <- El'.
    destruct La as (Hlen & _ & Q). rewrite answer_query, El in Q. injection Q as ->. rewrite fst_zip; [done|]. rewrite fmap_length. lia. }
  exists vs. split; [done|]. split; [done|]. eapply Forall2_impl; [exact F2|]. intros id v E. cbn beta in E. by rewrite (Hv t id), E.
Qed.
(** So attaching a component to an entity that has it leaves every position as
    it is (C05); attaching a new one puts it last; detaching moves at most the
    last one. *)
Theorem C53_one_call ops o t : loose (ops ++ [o]) -> tidy (ops ++ [o]) -> once (ops ++ [o]) -> never_grouped (ops ++ [o]) t ->
  answer ops (HasRegistered t) = Ret (OBool true) ->
  exists es vs vs', layout ops t es vs /\ layout (ops ++ [o]) t (order_event t es (o, answer ops o)) vs'.
Proof.
  intros L T O F Hr. pose proof L as [L' Lo]%loose_snoc. pose proof T as [T' _]%tidy_snoc.
  assert (never_grouped ops t) as F' by (intros k a b Hin; apply (F k), elem_of_app; by left).
  assert (once ops) as O' by (intros i ord Hin; apply (O i), elem_of_app; by left).
  destruct (C53_order ops t L' T' O' F' Hr) as (vs & La & _). destruct (C53_order (ops ++ [o]) t L T O F) as (vs' & La' & _); [by apply C20_permanent|].
  exists (order_of (seen ops) t), vs, vs'. split; [done|]. rewrite seen_snoc in La'. unfold order_of in La'. rewrite foldl_app in La'. exact La'.
Qed.

(** ** C06 *)
Theorem C06_any_history ops lo hi t vs : loose (ops ++ [BatchAttach lo hi t vs]) -> never_grouped ops t -> answer ops (HasRegistered t) = Ret (OBool true) ->
  length vs = hi - lo ->
  (forall id, lo <= id < hi -> answer ops (Exist id) = Ret (OBool true) /\ answer ops (ReadComp t id) = Ret (OVal None)) ->
  answer ops (BatchAttach lo hi t vs) = Ret OUnit /\
  after (ops ++ [BatchAttach lo hi t vs]) = after (ops ++ zip_with (Attach t) (seq lo (hi - lo)) vs).
Proof.
  intros L F Hr Hlen Hids. apply loose_snoc in L as [L _]. destruct (loose_inv _ L) as (G & _).
  rewrite answer_has in Hr. unfold has_registered in Hr. injection Hr as Hr%bool_decide_eq_true. destruct Hr as [st Hst].
  destruct (gd_st _ G t st Hst) as [Hty W]. destruct st as [ty s]. cbn [st_ty st_set] in *. subst ty.
  pose proof (free_with t _ (never_free ops t F)) as Hg.
  assert (forall id, lo <= id < hi -> ss_get_index s id = None) as Hfr.
  { intros id Hid. destruct (Hids id Hid) as [_ Hv]. rewrite answer_read in Hv by done. unfold wvalue in Hv. rewrite Hst in Hv. cbn [st_set] in Hv. injection Hv as Hv.
    apply exist_pos_false. by apply exist_lookup_false. }
  assert (forall id, lo <= id < hi -> exist id (after ops) = Ret true) as Hex.
  { intros id Hid. destruct (Hids id Hid) as [Hl _]. unfold answer in Hl. cbn [step] in Hl. rewrite bind_get, fmapM_fst in Hl. unfold lift in Hl.
    destruct (exist id (after ops)) as [b| | |]; cbn in Hl; try discriminate Hl. by injection Hl as ->. }
  assert (forall es vs' w s0, ss_wf s0 -> length es = length vs' -> w_comps w !! t = Some (St t s0) ->
     groups_with t (w_groups w) 0 = [] -> (forall id, id ∈ es -> exist id w = Ret true) ->
     exists s1, add_seq es vs' s0 = (Ret tt, s1) /\
       exec (zip_with (Attach t) es vs') w = set_comps (<[t := St t s1]> (w_comps w)) w) as Hseq.
  { clear. induction es as [|e es IH]; intros [|v vs] w s0 W0 Hl Hs0 Hg0 Hex; try done.
    - exists s0. split; [done|]. simpl. rewrite insert_id by done. by destruct w.
    - cbn [zip_with exec add_seq]. destruct (add_spec e v s0 W0) as (s1 & E1 & W1 & _).
      pose proof (attach_ungrouped w t e v s0 (Hex e (elem_of_list_here _ _)) Hs0 Hg0) as E. rewrite E1 in E.
      rewrite E. cbn [snd].
      destruct (IH vs (set_comps (<[t := St t s1]> (w_comps w)) w) s1 W1) as (s2 & E2 & X2).
      + by injection Hl.
      + simpl. by rewrite lookup_insert.
      + done.
      + intros id Hid. apply (Hex id). by right.
      + exists s2. split; [unfold bind; by rewrite E1|]. rewrite X2. simpl. rewrite insert_insert. done. }
  destruct (Hseq (seq lo (hi - lo)) vs (after ops) s W) as (s1 & E1 & X1).
  - by rewrite seq_length.
  - done.
  - done.
  - intros id Hid. apply elem_of_seq in Hid. apply Hex. lia.
  - rewrite <- add_batch_seq in E1; [|done|by rewrite seq_length|apply NoDup_seq|].
    2:{ intros e He. apply elem_of_seq in He. apply Hfr. lia. }
    assert (step (BatchAttach lo hi t vs) (after ops) =
      (Ret OUnit, set_comps (<[t := St t s1]> (w_comps (after ops))) (after ops))) as E.
    { cbn [step]. unfold fmapM, entities_attach, bind. rewrite (proj2 (Nat.eqb_eq _ _) Hlen). cbn [assert ret].
      unfold storage_mut. unfold ret. rewrite Hst. cbn [st_ty st_set]. rewrite Nat.eqb_refl. by rewrite E1. }
    split; [unfold answer; by rewrite E|]. rewrite after_snoc, E. unfold after in *. rewrite exec_app. by rewrite X1.
Qed.

(** ** C48 *)
Theorem C48_any_history ops o t id : tidy ops -> 1 <= id -> (exists v, o = Attach t id v) \/ o = Detach t id ->
  (id ∉ alive (seen ops) /\ last (waiting (seen ops)) <> Some id) \/ t ∉ types_of (seen ops) ->
  step o (after ops) = (Panic, after ops).
Proof.
  intros T H1 Ho Hd.
  assert (exist id (after ops) = Panic \/ exist id (after ops) = Ret false \/ exist id (after ops) = Ret true /\ has_registered t (after ops) = false) as K.
  { destruct Hd as [[Hd Hl]|Ht].
    - pose proof (C15_any_history ops id [] T H1 Hd Hl) as E. cbn [step] in E. unfold fmapM, bind at 1, remove_entity in E. rewrite bind_get in E.
      destruct (shadow ops T) as (ops' & L & _ & _ & He & (Ha & Hw & _) & _). destruct (reached ops' L) as [HR A].
      unfold exist. rewrite He. pose proof (exist_spec _ _ id HR H1) as Ex. unfold exist in Ex. rewrite Ex. unfold a_exist. case_decide; [by left|]. right. left.
      f_equal. apply bool_decide_eq_false. intros [Hf|Hf].
      + apply Hd. rewrite Ha. apply (ag_alive _ _ A). split; [unfold allocated; lia|done].
      + apply Hl. by rewrite Hw, (ag_wait _ _ A).
    - assert (has_registered t (after ops) = false) as Hr.
      { pose proof (C20_has_registered ops t) as E. cbn [step] in E. rewrite bind_get in E. unfold ret in E. injection E as E. rewrite E. by apply bool_decide_eq_false. }
      unfold exist, em_has. destruct (_ !! _) as [[]|]; cbn; eauto. }
  destruct Ho as [[v ->]| ->]; cbn [step]; unfold fmapM, bind at 1.
  - unfold attach_component. rewrite bind_get. destruct K as [->|[->|[-> Hr]]]; [done|rewrite bind_lift; by rewrite bind_assert_false|].
    rewrite bind_lift, bind_assert_true by done. unfold entity_attach. rewrite bind_get, Hr. by rewrite bind_assert_false.
  - unfold detach_component. rewrite bind_get. destruct K as [->|[->|[-> Hr]]]; [done|rewrite bind_lift; by rewrite bind_assert_false|].
    rewrite bind_lift, bind_assert_true by done. unfold entity_detach. rewrite bind_get, Hr. by rewrite bind_assert_false.
Qed.

(** ** C16 *)
(** remove_entity, whatever the groups are like: if it returns, the entity and
    all its components are gone; if it panics, the entity still exists if it
    did, with some of its components or all.  In both cases nothing else has
    changed. *)
Theorem C16_any_history ops id ord : loose (ops ++ [RemoveEntity id ord]) -> tidy (ops ++ [RemoveEntity id ord]) ->
  let ops' := ops ++ [RemoveEntity id ord] in
  (forall t j, j <> id -> answer ops' (ReadComp t j) = answer ops (ReadComp t j)) /\
  (forall j, 1 <= j -> j <> id -> answer ops' (Exist j) = answer ops (Exist j)) /\
  (forall r, answer ops' (ReadRes r) = answer ops (ReadRes r)) /\
  (forall t, answer ops' (HasRegistered t) = answer ops (HasRegistered t)) /\
  match answer ops (RemoveEntity id ord) with
  | Ret _ => id ∈ alive (seen ops) /\ alive (seen ops') = alive (seen ops) ∖ {[id]} /\
      waiting (seen ops') = id :: waiting (seen ops) /\ forall t, answer ops' (ReadComp t id) = Ret (OVal None)
  | _ => alive (seen ops') = alive (seen ops) /\ waiting (seen ops') = waiting (seen ops) /\
      forall t, answer ops' (ReadComp t id) = answer ops (ReadComp t id) \/ answer ops' (ReadComp t id) = Ret (OVal None)
  end.
Proof.
  intros L T ops'. assert (Hh : handed_ev (RemoveEntity (V := V) id ord, answer ops (RemoveEntity id ord)) = []) by done.
  assert (forall t j, exists old new, answer ops (ReadComp t j) = Ret (OVal old) /\ answer ops' (ReadComp t j) = Ret (OVal new) /\
    effect_on (answer ops) (RemoveEntity id ord) t j old new) as C by (intros t j; by apply C02_any_history).
  split; [|split; [|split; [|split]]].
  - intros t j Hne. destruct (C t j) as (old & new & -> & -> & E). unfold effect_on in E. do 2 f_equal. revert E. generalize (answer ops (RemoveEntity id ord)).
    intros [r| | |]; [by rewrite decide_False by done|..]; intros [E|(E & _)]; done.
  - intros j Hj Hne. unfold answer, ops'. cbn [step]. rewrite !bind_get, !fmapM_fst. unfold lift, exist. rewrite after_snoc. cbn [step]. rewrite fmapM_snd.
    destruct (remove_em id ord (after ops)) as [[-> _]|(Hx & _ & ->)]; [done|]. destruct (tidy_removes ops id ord T Hx) as (e & -> & _ & K). cbn [snd]. by rewrite K.
  - intros r. unfold answer, ops'. rewrite after_snoc. cbn [step]. rewrite !fmapM_fst. unfold resource_read. rewrite !bind_get.
    pose proof (k_res _ _ (pres_step (RemoveEntity id ord) eq_refl (after ops))) as K. cbn [step] in K. rewrite K. destruct (w_res (after ops) !! r) as [x|]; [|done]. by destruct (rv_ty x =? r).
  - intros t. rewrite !answer_has. do 2 f_equal. unfold ops', has_registered. rewrite after_snoc. apply bool_decide_ext.
    pose proof (k_tags _ _ (pres_step (RemoveEntity id ord) eq_refl (after ops)) t) as K.
    destruct (w_comps (after ops) !! t), (w_comps (step (RemoveEntity id ord) (after ops)).2 !! t); try done.
  - rewrite (seen_snoc ops (RemoveEntity id ord) : seen ops' = _). unfold alive, waiting. rewrite !foldl_app. cbn [foldl]. fold (alive (seen ops)) (waiting (seen ops)).
    destruct (answer ops (RemoveEntity id ord)) as [r| | |] eqn:Ea.
    2-4: split; [cbn; apply (right_id_L ∅ (∪))|]; split; [cbn; apply filter_nothing|]; intros t; destruct (C t id) as (old & new & -> & -> & E);
      unfold effect_on in E; rewrite Ea in E; destruct E as [->|(_ & _ & ->)]; [by left|by right].
    unfold answer in Ea. cbn [step] in Ea. rewrite fmapM_fst in Ea. destruct (remove_em id ord (after ops)) as [[_ Hn]|(Hx & _ & _)].
    { destruct (remove_entity id ord (after ops)).1 as [x| | |]; try discriminate Ea. by destruct (Hn x). }
    destruct (tidy_removes ops id ord T Hx) as (e & _ & Hl & _). split; [done|]. split; [done|]. split; [done|].
    intros t. destruct (C t id) as (old & new & _ & -> & E). unfold effect_on in E. unfold answer at 1 in E. cbn [step] in E. rewrite fmapM_fst, Ea in E.
    rewrite decide_True in E by done. by rewrite E.
Qed.
End frame.

(** ** Concrete cases *)
Definition ordered : list (op nat) :=
  [Register 1; Register 2; Register 3; CreateEntities 6; MakeGroup KFull 2 3; BatchAttach 1 5 1 [11; 12; 13; 14]; BatchAttach 1 7 2 [21; 22; 23; 24; 25; 26]; BatchAttach 1 7 3 [31; 32; 33; 34; 35; 36];
   Attach 1 5 15; Detach 1 2; Attach 1 3 33; RemoveEntity 4 [1; 2; 3]; RemoveEntity 6 [3; 1; 2]; Attach 1 2 22; Detach 1 2; MakeGroup KNon 2 7; RemoveEntity 1 [1; 2; 3]; Attach 1 2 222].
Ltac calls H := repeat (apply elem_of_cons in H as [H|H]; [first [discriminate H|injection H as; subst]|]); try (by apply elem_of_nil in H).
Example C53_case : loose ordered /\ tidy ordered /\ once ordered /\ never_grouped ordered 1 /\ ~ rules ordered /\
  order_of (seen ordered) 1 = [1; 5; 3; 2] /\ answer ordered (StoreData 1) = Ret (OData (Some [11; 15; 33; 222])) /\
  answer ordered (HasRegistered 1) = Ret (OBool true) /\ answer (take 16 ordered) (RemoveEntity 1 [1; 2; 3]) = Panic.
Proof.
  split; [apply looseb_ok; vm_compute; reflexivity|]. split; [apply tidyb_ok; vm_compute; reflexivity|]. split.
  { intros id ord H. unfold ordered in H. calls H; by_compute. }
  split. { intros k a b H. unfold ordered in H. calls H; done. }
  split; [|split_and!; vm_compute; reflexivity].
  intros (_ & _ & _ & _ & _ & _ & _ & _ & _ & _ & _ & _ & _ & _ & _ & L & _). destruct L as [E|(_ & E & _)]; [vm_compute in E; discriminate E|]. revert E. by_compute.
Qed.
(** C17 for a removal that returns; C16 for one that returns and one that
    panics *)
Example C16_any_case : let ops := take 11 ordered in
  loose (ops ++ [RemoveEntity 4 [1; 2; 3]]) /\ tidy (ops ++ [RemoveEntity 4 [1; 2; 3]]) /\ answer ops (RemoveEntity 4 [1; 2; 3]) = Ret OUnit /\
  NoDup [1; 2; 3] /\ [1; 2; 3] ≡ₚ [3; 1; 2] /\ let ops := take 16 ordered in
  loose (ops ++ [RemoveEntity 1 [1; 2; 3]]) /\ tidy (ops ++ [RemoveEntity 1 [1; 2; 3]]) /\ answer ops (RemoveEntity 1 [1; 2; 3]) = Panic.
Proof.
  split; [apply looseb_ok; vm_compute; reflexivity|]. split; [apply tidyb_ok; vm_compute; reflexivity|]. split; [vm_compute; reflexivity|]. split; [by_compute|]. split; [by_compute|].
  split; [apply looseb_ok; vm_compute; reflexivity|]. split; [apply tidyb_ok; vm_compute; reflexivity|]. vm_compute; reflexivity.
Qed.
(** C06: after the failed group, a batch to new entities; C48: entity 4 is dead
    and is not the last one waiting *)
Example C06_any_case : let ops := ordered ++ [CreateEntities 2] in
  loose (ops ++ [BatchAttach 7 9 1 [17; 18]]) /\ never_grouped ops 1 /\ answer ops (HasRegistered 1) = Ret (OBool true) /\
  (forall id, 7 <= id < 9 -> answer ops (Exist id) = Ret (OBool true) /\ answer ops (ReadComp 1 id) = Ret (OVal None)).
Proof.
  split; [apply looseb_ok; vm_compute; reflexivity|]. split.
  { intros k a b H. unfold ordered in H. simpl app in H. calls H; done. } split; [vm_compute; reflexivity|].
  intros id H. assert (id = 7 \/ id = 8) as [-> | ->] by lia; split; vm_compute; reflexivity.
Qed.
Example C48_any_case : tidy ordered /\ 6 ∉ alive (seen ordered) /\ last (waiting (seen ordered)) <> Some 6 /\ 9 ∉ types_of (seen ordered).
Proof. split; [apply tidyb_ok; vm_compute; reflexivity|]. split_and!; by_compute. Qed.

(** C31 and C32, what happens in the cases their positive theorems leave out. *)
From Coq Require Import Sorted.
From stdpp Require Import prelude list gmap.
From Verif Require Import Base Api ModelSparse ModelEntity ModelGroup ModelWorld ModelQuery ModelStep ModelConc SpecConc
  Spec History Rules Samples ProofSparse ProofEntity ProofGroup ProofWorld ProofOps ProofOps2 ProofRemove ProofRemove2
  ProofQuery ProofQuery2 ProofQuery3 ProofQueryMut ProofMain ProofHistory ProofQuery4 ProofHistory2 Checks
  ProofWf ProofConc5 ProofConc9 ProofApart2 PropEntity PropComp PropWorld PropQuery PropGroup.

From Verif Require ProofLoose2.

Section groups.
Context {V : Type}.
Implicit Types (ops : list (op V)) (t id a b : nat) (v : V) (w : world V).

(** ** remove_entity, group by group *)
Definition kill (id i : nat) : M (world V) unit :=
  run_group_at i (full_remove id >>! on_a (cs_remove id) >>! on_b (cs_remove id)) (part_remove id >>! on_a (cs_remove id)) (non_remove id).
Lemma kill_good id i : ok good (kill id i).
Proof.
  apply ok_run_group; [| |apply ok_non_remove].
  - apply ok_bind; [apply ok_full_remove|]. intros _. apply ok_bind; [apply ok_on_a, ok_cs_remove|]. intros _. apply ok_on_b, ok_cs_remove.
  - apply ok_bind; [apply ok_part_remove|]. intros _. apply ok_on_a, ok_cs_remove.
Qed.
Lemma kill_values id i w t x : good w -> wvalue w t x = None -> wvalue (kill id i w).2 t x = None.
Proof.
  intros G H. destruct (group_values (Some id) i _ _ (non_remove id) w G (fun va vb => gV_full_kill va vb id) (fun va vb => gV_part_kill va vb id) t x) as [E|(_ & _ & E)]; [|exact E].
  unfold kill. rewrite E. exact H.
Qed.
Lemma kill_other id i j w : i <> j -> w_groups (kill id i w).2 !! j = w_groups w !! j.
Proof.
  intros Hij. unfold kill, run_group_at. destruct (w_groups w !! i) as [[d|d|d]|] eqn:Hi; [..|done].
  - destruct (w_comps w !! fd_a d); [|done]. destruct (fd_a d =? fd_b d); [done|]. destruct (w_comps w !! fd_b d); [|done]. destruct ((_ >>! _) _) as [o c]. cbn. by rewrite list_lookup_insert_ne.
  - destruct (w_comps w !! pd_a d); [|done]. destruct (pd_a d =? pd_b d); [done|]. destruct (w_comps w !! pd_b d); [|done]. destruct ((_ >>! _) _) as [o c]. cbn. by rewrite list_lookup_insert_ne.
  - destruct (w_comps w !! nd_a d); [|done]. destruct (w_comps w !! nd_b d); [|done]. destruct (non_remove _ _) as [o c]. cbn. by rewrite list_lookup_insert_ne.
Qed.
(** a group is not told if one of the two components is gone already *)
Lemma kill_untold id i w g : good w -> w_groups w !! i = Some g -> wvalue w (g_types g).1 id = None \/ wvalue w (g_types g).2 id = None ->
  w_groups (kill id i w).2 !! i = Some g.
Proof.
  intros G Hi Hv. unfold kill, run_group_at. rewrite Hi. pose proof (lookup_lt_Some _ _ _ Hi) as Hl.
  assert (forall sa sb, w_comps w !! (g_types g).1 = Some sa -> w_comps w !! (g_types g).2 = Some sb -> in_components (st_set sa) (st_set sb) id = false) as Hin.
  { intros sa sb Ha Hb. unfold in_components. unfold wvalue in Hv. rewrite Ha, Hb in Hv. destruct (gd_st w G _ _ Ha) as [_ Wa], (gd_st w G _ _ Hb) as [_ Wb].
    apply andb_false_iff. destruct Hv as [Hv|Hv]; [left|right]; by apply exist_lookup_false. }
  destruct g as [d|d|d]; cbn [g_types fst snd] in *.
  - destruct (w_comps w !! fd_a d) as [sa|] eqn:Ha; [|exact Hi]. destruct (fd_a d =? fd_b d); [exact Hi|]. destruct (w_comps w !! fd_b d) as [sb|] eqn:Hb; [|exact Hi].
    assert ((full_remove id >>! on_a (cs_remove id) >>! on_b (cs_remove id)) (GC d (st_set sa) (st_set sb)) = (on_a (cs_remove id) >>! on_b (cs_remove id)) (GC d (st_set sa) (st_set sb))) as ->.
    { unfold bind at 1. unfold full_remove. rewrite bind_get. unfold full_in_group. cbn [gc_a gc_b gc_d]. rewrite (Hin sa sb eq_refl eq_refl). cbn [negb]. rewrite bind_lift. done. }
    unfold on_a, on_b, bind. cbn [gc_a gc_b gc_d]. destruct (cs_remove id (st_set sa)) as [[x| | |] sa']; cbn; rewrite ?list_lookup_insert by done; try done.
    destruct (cs_remove id (st_set sb)) as [o sb']. cbn. by rewrite list_lookup_insert.
  - destruct (w_comps w !! pd_a d) as [sa|] eqn:Ha; [|exact Hi]. destruct (pd_a d =? pd_b d); [exact Hi|]. destruct (w_comps w !! pd_b d) as [sb|] eqn:Hb; [|exact Hi].
    assert ((part_remove id >>! on_a (cs_remove id)) (GC d (st_set sa) (st_set sb)) = on_a (cs_remove id) (GC d (st_set sa) (st_set sb))) as ->.
    { unfold bind at 1. unfold part_remove. rewrite bind_get. unfold part_in_group. cbn [gc_a gc_b gc_d]. rewrite (Hin sa sb eq_refl eq_refl). cbn [negb]. rewrite bind_lift. done. }
    unfold on_a. cbn [gc_a gc_b gc_d]. destruct (cs_remove id (st_set sa)) as [o sa']. cbn. by rewrite list_lookup_insert.
  - destruct (w_comps w !! nd_a d) as [sa|] eqn:Ha; [|exact Hi]. destruct (w_comps w !! nd_b d) as [sb|] eqn:Hb; [|exact Hi].
    assert (non_remove id (GC d (st_set sa) (st_set sb)) = (Ret tt, GC d (st_set sa) (st_set sb))) as ->.
    { unfold non_remove. rewrite bind_get. unfold non_in_group. cbn [gc_a gc_b gc_d]. rewrite (Hin sa sb eq_refl eq_refl). cbn [negb]. rewrite bind_lift. done. }
    cbn. by rewrite list_lookup_insert.
Qed.
(** after its turn, what it owns of the entity is gone *)
Lemma kill_kills id i w g t : good w -> w_groups w !! i = Some g -> owns (g_static g) t -> (kill id i w).1 = Ret tt -> wvalue (kill id i w).2 t id = None.
Proof.
  intros G Hi Ho. unfold kill, run_group_at. rewrite Hi. destruct g as [d|d|d]; cbn [g_static owns] in Ho; [..|done].
  - destruct (w_comps w !! fd_a d) as [sa|] eqn:Ha; [|done]. destruct (fd_a d =? fd_b d) eqn:Hab; [done|]. apply Nat.eqb_neq in Hab. destruct (w_comps w !! fd_b d) as [sb|] eqn:Hb; [|done].
    destruct (gd_st w G _ _ Ha) as [_ Wa], (gd_st w G _ _ Hb) as [_ Wb].
    destruct (ok_full_remove id (GC d (st_set sa) (st_set sb))) as [(_ & W1 & W2) _]; [done|].
    unfold bind at 1 3. destruct (full_remove id (GC d (st_set sa) (st_set sb))) as [[x| | |] [d' sa' sb']]; try done. cbn [fst snd gc_a gc_b gc_d] in *.
    unfold on_a, on_b, bind. cbn [gc_a gc_b gc_d]. pose proof (cs_remove_lookup sa' id id W1) as La. pose proof (cs_remove_lookup sb' id id W2) as Lb. rewrite decide_True in La, Lb by done.
    destruct (cs_remove id sa') as [[y| | |] sa2]; try done. cbn [gc_a gc_b gc_d]. destruct (cs_remove id sb') as [[z| | |] sb2]; try done. cbn [fst snd gc_a gc_b gc_d] in *. intros _.
    unfold wvalue. simpl. destruct Ho as [->| ->]; [rewrite lookup_insert_ne by done|]; by rewrite lookup_insert.
  - destruct (w_comps w !! pd_a d) as [sa|] eqn:Ha; [|done]. destruct (pd_a d =? pd_b d) eqn:Hab; [done|]. apply Nat.eqb_neq in Hab. destruct (w_comps w !! pd_b d) as [sb|] eqn:Hb; [|done].
    destruct (gd_st w G _ _ Ha) as [_ Wa], (gd_st w G _ _ Hb) as [_ Wb]. subst t.
    destruct (ok_part_remove id (GC d (st_set sa) (st_set sb))) as [(_ & W1 & W2) _]; [done|].
    unfold bind. destruct (part_remove id (GC d (st_set sa) (st_set sb))) as [[x| | |] [d' sa' sb']]; try done. cbn [fst snd gc_a gc_b gc_d] in *.
    unfold on_a. cbn [gc_a gc_b gc_d]. pose proof (cs_remove_lookup sa' id id W1) as La. rewrite decide_True in La by done.
    destruct (cs_remove id sa') as [[y| | |] sa2]; try done. cbn [fst snd gc_a gc_b gc_d] in *. intros _. unfold wvalue. simpl. by rewrite lookup_insert.
Qed.
Lemma kills_untold id i j gi gj t gs : i < j -> owns (g_static gi) t -> t = (g_types gj).1 \/ t = (g_types gj).2 -> forall w w',
  StronglySorted lt gs -> good w -> w_groups w !! j = Some gj ->
  (wvalue w t id = None \/ (i ∈ gs /\ w_groups w !! i = Some gi)) ->
  for_each gs (kill id) w = (Ret tt, w') -> w_groups w' !! j = Some gj.
Proof.
  intros Hij Ho Ht. induction gs as [|x gs IH]; intros w w' Hs G Hj Hst; cbn [for_each].
  - by intros [= <-].
  - apply StronglySorted_inv in Hs as [Hs Hx]. unfold bind. pose proof (kill_good id x w G) as [Gx _]. pose proof (kill_values id x w t id G) as Hv.
    pose proof (kill_other id x j w) as Hoj. pose proof (kill_other id x i w) as Hoi.
    pose proof (fun E => kill_kills id i w gi t G E Ho) as Hk.
    destruct (decide (x = j)) as [->|Hxj].
    + destruct Hst as [Hst|[Hin _]].
      2: { apply elem_of_cons in Hin as [->|Hin]; [lia|]. rewrite Forall_forall in Hx. specialize (Hx _ Hin). lia. }
      pose proof (kill_untold id j w gj G Hj) as Hu. destruct (kill id j w) as [[y| | |] w1]; try done. cbn [snd] in *. apply IH; [done|done| |left; by apply Hv].
      apply Hu. destruct Ht as [<-|<-]; [by left|by right].
    + specialize (Hoj Hxj). destruct (decide (x = i)) as [->|Hxi].
      * destruct Hst as [Hn|[_ Hi]].
        -- destruct (kill id i w) as [[y| | |] w1]; try done. cbn [snd] in *. apply IH; [done|done|by rewrite Hoj|left; by apply Hv].
        -- specialize (Hk Hi). destruct (kill id i w) as [[[]| | |] w1]; try done. cbn [fst snd] in *.
           apply IH; [done|done|by rewrite Hoj|left; by apply Hk].
      * specialize (Hoi Hxi). destruct (kill id x w) as [[y| | |] w1]; try done. cbn [snd] in *. apply IH; [done|done|by rewrite Hoj|].
        destruct Hst as [Hst|[Hin Hi]]; [left; by apply Hv|right]. split; [|by rewrite Hoi]. apply elem_of_cons in Hin as [->|Hin]; [done|done].
Qed.
Lemma drops_groups id ts w w' : for_each ts (fun t => dyn_mut t (cs_remove id)) w = (Ret tt, w') -> w_groups w' = w_groups w.
Proof.
  revert w. induction ts as [|t ts IH]; intros w; cbn [for_each]; [by intros [= <-]|]. unfold bind, dyn_mut. destruct (w_comps w !! t) as [st|]; [|done].
  destruct (cs_remove id (st_set st)) as [[x| | |] s']; try done. intros E. by rewrite (IH _ E).
Qed.
Lemma remove_untold id ord i j gi gj t w w' : i < j -> owns (g_static gi) t -> t = (g_types gj).1 \/ t = (g_types gj).2 ->
  good w -> w_groups w !! i = Some gi -> w_groups w !! j = Some gj ->
  (forall gs, collect_in_group w id (w_groups w) 0 = Ret gs -> StronglySorted lt gs /\ i ∈ gs) ->
  remove_entity id ord w = (Ret tt, w') -> w_groups w' !! j = Some gj.
Proof.
  intros Hij Ho Ht G Hi Hj Hc. unfold remove_entity. rewrite bind_get. unfold bind at 1, lift at 1. destruct (exist id w) as [[]| | |]; try done.
  rewrite bind_assert_true by done. destruct (collect_in_group w id (w_groups w) 0) as [gs| | |]; try done. rewrite bind_lift. destruct (Hc gs eq_refl) as [Hs Hin].
  fold (kill id). unfold bind at 1. destruct (for_each gs (kill id) w) as [[[]| | |] w1] eqn:E; try done.
  pose proof (kills_untold id i j gi gj t gs Hij Ho Ht w w1 Hs G Hj (or_intror (conj Hin Hi)) E) as K. rewrite bind_get. unfold bind.
  destruct (for_each (storages_with w1 id ord) _ w1) as [[[]| | |] w2] eqn:E2; try done. rewrite <- (drops_groups _ _ _ _ E2) in K.
  unfold on_em. destruct (em_remove id (w_em w2)) as [o e']. intros [= -> <-]. exact K.
Qed.

(** ** a group query lists as many as the group says *)
Lemma collect_count w (J : qiter V) (idx : qi_st J -> nat) n :
  (forall st x st', qi_next_id J w st = (Ret (Some x), st') -> idx st < n /\ idx st' = idx st + 1) ->
  (forall st st', qi_next_id J w st = (Ret None, st') -> n <= idx st) ->
  forall fuel st l, idx st <= n -> collect fuel w J st = Ret l -> length l = n - idx st.
Proof.
  intros H1 H2. induction fuel as [|fuel IH]; intros st l Hst; [done|]. cbn [collect]. specialize (H1 st). specialize (H2 st).
  destruct (qi_next_id J w st) as [[[[id it]|]| | |] st']; try done.
  - destruct (H1 _ _ eq_refl) as [E1 E2]. destruct (deref w it) as [v|]; [|done]. destruct (collect fuel w J st') as [l'| | |] eqn:Ec; try done.
    intros [= <-]. apply IH in Ec; [|lia]. cbn [length]. lia.
  - intros [= <-]. specialize (H2 _ eq_refl). cbn [length]. lia.
Qed.
Lemma full_count ma mb a b n w fuel l : collect fuel w (iter_full (V := V) ma mb a b n) 0 = Ret l -> length l = n.
Proof.
  intros E. replace n with (n - 0) by lia. eapply (collect_count w (iter_full (V := V) ma mb a b n) (fun x => x)); [..|exact E]; [| |lia].
  - intros st x st'. cbn [iter_full qi_next_id]. unfold bind, get, ptr, ent_unchecked, data_unchecked, put, ret, lift, ub, unwrap, panic. cbn [fst snd].
    destruct (st <? _) eqn:Es; [apply Nat.ltb_lt in Es|apply Nat.ltb_ge in Es]; intros E1; repeat case_match; simplify_eq/=; lia.
  - intros st st'. cbn [iter_full qi_next_id]. unfold bind, get, ptr, ent_unchecked, data_unchecked, put, ret, lift, ub, unwrap, panic. cbn [fst snd].
    destruct (st <? _) eqn:Es; [apply Nat.ltb_lt in Es|apply Nat.ltb_ge in Es]; intros E1; repeat case_match; simplify_eq/=; lia.
Qed.
Lemma part_count ma mb a b n w fuel l : collect fuel w (iter_part (V := V) ma mb a b n) 0 = Ret l -> length l = n.
Proof.
  intros E. replace n with (n - 0) by lia. eapply (collect_count w (iter_part (V := V) ma mb a b n) (fun x => x)); [..|exact E]; [| |lia].
  - intros st x st'. cbn [iter_part qi_next_id]. unfold bind, get, ptr, ent_unchecked, data_unchecked, put, ret, lift, ub, unwrap, panic. cbn [fst snd].
    destruct (st <? _) eqn:Es; [apply Nat.ltb_lt in Es|apply Nat.ltb_ge in Es]; intros E1; repeat case_match; simplify_eq/=; lia.
  - intros st st'. cbn [iter_part qi_next_id]. unfold bind, get, ptr, ent_unchecked, data_unchecked, put, ret, lift, ub, unwrap, panic. cbn [fst snd].
    destruct (st <? _) eqn:Es; [apply Nat.ltb_lt in Es|apply Nat.ltb_ge in Es]; intros E1; repeat case_match; simplify_eq/=; lia.
Qed.
Lemma non_count ma mb a b gi w fuel l d : w_groups w !! gi = Some (GNon d) -> collect fuel w (iter_non (V := V) ma mb a b gi) 0 = Ret l -> length l = ss_len (nd_set d).
Proof.
  intros Hg E. rewrite <- (Nat.sub_0_r (ss_len _)). eapply (collect_count w (iter_non (V := V) ma mb a b gi) (fun x => x)); [..|exact E]; [| |lia].
  - intros st x st'. cbn [iter_non qi_next_id]. unfold gptr. rewrite Hg. unfold bind, get, ptr, ent_unchecked, data_unchecked, put, ret, lift, ub, unwrap, panic. cbn [fst snd].
    destruct (st <? _) eqn:Es; [apply Nat.ltb_lt in Es|apply Nat.ltb_ge in Es]; intros E1; repeat case_match; simplify_eq/=; lia.
  - intros st st'. cbn [iter_non qi_next_id]. unfold gptr. rewrite Hg. unfold bind, get, ptr, ent_unchecked, data_unchecked, put, ret, lift, ub, unwrap, panic. cbn [fst snd].
    destruct (st <? _) eqn:Es; [apply Nat.ltb_lt in Es|apply Nat.ltb_ge in Es]; intros E1; repeat case_match; simplify_eq/=; lia.
Qed.
Lemma find_group_at g gs k gi : find_group g gs k = Some gi -> exists i h, gi = k + i /\ gs !! i = Some h /\ g_static h = g_static g.
Proof.
  revert k. induction gs as [|h gs IH]; intros k; cbn [find_group]; [done|]. destruct (g_eqb h g) eqn:E.
  - intros [= <-]. exists 0, h. split; [lia|]. split; [done|]. by apply g_eqb_static.
  - intros (i & h' & -> & H1 & H2)%IH. exists (S i), h'. split; [lia|done].
Qed.
Lemma query_count w k ma mb a b l : (step (Query (QGroup k ma mb a b)) w).1 = Ret (OItems l) ->
  exists i g, w_groups w !! i = Some g /\ g_static g = (k, a, b) /\ length l = g_len g.
Proof.
  cbn [step]. unfold fmapM. rewrite bind_get. unfold bind at 1, lift. unfold run_query.
  destruct (query_open w (QGroup k ma mb a b) []) as [[J| | |] hs] eqn:Eo; try done.
  destruct (collect _ w J (qi_init J)) as [l0| | |] eqn:Ec; try done. unfold ret. cbn [fst]. intros [= ->].
  cbn [query_open] in Eo. unfold bind at 1, assert in Eo. destruct (has_registered a w && has_registered b w); [|done].
  unfold ret at 1 in Eo.
  unfold bind at 1 in Eo. destruct (ModelQuery.lock a ma []) as [[u1| | |] h1]; try done.
  unfold bind at 1 in Eo. destruct (ModelQuery.lock b mb h1) as [[u2| | |] h2]; try done.
  unfold bind at 1 in Eo. destruct (downcast w a h2) as [[u3| | |] h3]; try done.
  unfold bind at 1 in Eo. destruct (downcast w b h3) as [[u4| | |] h4]; try done.
  unfold bind at 1, assert in Eo. destruct (has_group (new_group k a b) w); [|done]. unfold ret at 1 in Eo.
  unfold bind at 1, unwrap at 1 in Eo. destruct (find_group (new_group k a b) (w_groups w) 0) as [gi|] eqn:Ef; [|done]. unfold ret at 1 in Eo.
  apply find_group_at in Ef as (i & g & -> & Hg & Hst). cbn [Nat.add] in *. rewrite new_group_static in Hst.
  unfold bind at 1, unwrap at 1 in Eo. rewrite Hg in Eo. unfold ret at 1 in Eo.
  exists i, g. split; [done|]. split; [done|]. destruct k.
  - injection Eo as <- _. by apply full_count in Ec.
  - injection Eo as <- _. by apply part_count in Ec.
  - destruct g as [d|d|d]; try done. injection Eo as <- _. by eapply non_count in Ec.
Qed.


(** what opening a group query and asking its size answers *)
Lemma hint_of w k ma mb a b i g : good w -> is_Some (w_comps w !! a) -> is_Some (w_comps w !! b) ->
  w_groups w !! i = Some g -> g_static g = (k, a, b) -> (forall n h, w_groups w !! n = Some h -> g_static h = (k, a, b) -> n = i) ->
  use_query w (QGroup k ma mb a b) [CHint] = if lock_conflict [(a, ma)] b mb then Block else Ret [AHint (Some (g_len g))].
Proof.
  intros G [sa Ha] [sb Hb] Hg Hs Hu. destruct (gd_st w G _ _ Ha) as [Ta _], (gd_st w G _ _ Hb) as [Tb _].
  unfold use_query. cbn [query_open]. unfold has_registered. rewrite Ha, Hb. rewrite !bool_decide_true by eauto. cbn [andb]. rewrite bind_assert_true by done.
  unfold bind at 1. assert (ModelQuery.lock a ma [] = (Ret tt, [(a, ma)])) as -> by done.
  unfold bind at 1. unfold ModelQuery.lock. rewrite bind_get. destruct (lock_conflict [(a, ma)] b mb); [done|].
  unfold put at 1. unfold bind at 1. unfold downcast at 1. rewrite Ha, Ta, Nat.eqb_refl. unfold ret at 1.
  unfold bind at 1. unfold downcast at 1. rewrite Hb, Tb, Nat.eqb_refl. unfold ret at 1.
  assert (has_group (new_group k a b) w = true) as Hhas.
  { unfold has_group. apply existsb_exists. exists g. split; [by eapply elem_of_list_In, elem_of_list_lookup_2|]. apply g_eqb_static. by rewrite new_group_static. }
  rewrite bind_assert_true by done.
  assert (find_group (new_group k a b) (w_groups w) 0 = Some i) as Hf.
  { destruct (find_group (new_group k a b) (w_groups w) 0) as [gi|] eqn:Ef.
    - apply find_group_at in Ef as (n & h & -> & Hn & Hh). rewrite new_group_static in Hh. f_equal. by eapply Hu.
    - exfalso. clear -Hg Hs Ef. revert Ef. generalize 0. revert i Hg. induction (w_groups w) as [|h gs IH]; intros i Hg n; [done|]. cbn [find_group].
      destruct (g_eqb h (new_group k a b)) eqn:E; [done|]. destruct i as [|i]; [|by eapply IH].
      injection Hg as ->. assert (g_eqb g (new_group k a b) = true) as X; [|congruence]. apply g_eqb_static. by rewrite new_group_static. }
  rewrite Hf. unfold unwrap at 1. unfold bind at 1. unfold ret at 1. rewrite Hg. unfold unwrap at 1. unfold bind at 1. unfold ret at 1.
  destruct k, g as [d|d|d]; try done; unfold ret at 1; cbn [run_calls qi_init qi_hint iter_full iter_part iter_non]; unfold bind, run_call; cbn [qi_hint iter_full iter_part iter_non];
    unfold gcount, sub_hint; rewrite ?Hg; cbn [Nat.ltb Nat.leb]; rewrite ?Nat.sub_0_r; done.
Qed.

(** ** C31: a bad order *)
Lemma bad_order ops id ord i j g k a b t : rules ops ->
  groups_of (seen ops) !! i = Some g -> groups_of (seen ops) !! j = Some (k, a, b) -> i < j -> owns g t -> t = a \/ t = b ->
  in_group (seen ops) g.1.1 g.1.2 g.2 id -> in_group (seen ops) k a b id ->
  answer ops (RemoveEntity id ord) = Ret OUnit ->
  let ops' := ops ++ [RemoveEntity id ord] in
  exists gj, w_groups (after ops) !! j = Some gj /\ w_groups (after ops') !! j = Some gj /\ g_static gj = (k, a, b) /\
    forall n h, w_groups (after ops) !! n = Some h \/ w_groups (after ops') !! n = Some h -> g_static h = (k, a, b) -> n = j.
Proof.
  intros L Hi Hj Hij Ho Ht Hmi Hmj Hr. destruct (reached ops L) as [HR A]. pose proof (agree2_exec ops L) as A2.
  assert (forall n g0, groups_of (seen ops) !! n = Some g0 -> exists h, w_groups (after ops) !! n = Some h /\ g_static h = g0) as Hst.
  { intros n g0 Hn. rewrite <- (static_groups ops L) in Hn. unfold groups_in in Hn. rewrite list_lookup_fmap in Hn. destruct (w_groups (after ops) !! n) as [h|]; [|done].
    injection Hn as <-. by exists h. }
  destruct (Hst _ _ Hi) as (gi & Gi & Si). destruct (Hst _ _ Hj) as (gj & Gj & Sj).
  assert (t = (g_types gj).1 \/ t = (g_types gj).2) as Ht' by (destruct gj; cbn in Sj; injection Sj as <- <- <-; exact Ht).
  assert (w_groups (after (ops ++ [RemoveEntity id ord])) !! j = Some gj) as Gj'.
  { rewrite after_snoc. cbn [step]. rewrite ProofLoose2.fmapM_snd. unfold answer in Hr. cbn [step] in Hr. rewrite ProofLoose2.fmapM_fst in Hr.
    destruct (remove_entity id ord (after ops)) as [r w'] eqn:Er. cbn [fst snd] in *. destruct r as [[]| | |]; try done.
    eapply (remove_untold id ord i j gi gj t); [done|by rewrite Si|exact Ht'|by eapply R_good|done|done| |exact Er].
    intros gs Hc. rewrite (ProofRemove.collect_spec _ _ _ id _ _ 0 (R_st _ _ HR) (R_gr _ _ HR)) in Hc. injection Hc as <-. split; [apply mem_pos_sorted|].
    apply mem_pos_elem. rewrite (ag_grp _ _ A), list_lookup_fmap in Hi. destruct (a_groups (aexec ops a_init) !! i) as [ag|] eqn:Ea; [|done]. injection Hi as <-.
    exists i, ag. split; [done|]. split; [done|]. unfold gkey in Hmi. cbn [fst snd] in Hmi.
    rewrite (ag_left _ _ A2) by (by eapply elem_of_list_lookup_2). destruct Hmi as (V1 & V2 & Lo). unfold has. rewrite <- !(ag_val _ _ A). done. }
  assert (forall n h, w_groups (after ops) !! n = Some h -> g_static h = (k, a, b) -> n = j) as Huniq.
  { intros n h Hn Hs. destruct (decide (n = j)) as [|Hne]; [done|]. exfalso. destruct (C27_one_owner ops n j (k, a, b) (k, a, b)) as [D _]; [..|done].
    - unfold groups_in. rewrite list_lookup_fmap, Hn. cbn. by rewrite Hs.
    - unfold groups_in. rewrite list_lookup_fmap, Gj. cbn. by rewrite Sj.
    - done. }
  exists gj. split; [done|]. split; [done|]. split; [done|].
  assert (groups_in (after (ops ++ [RemoveEntity id ord])) = groups_in (after ops)) as Eg by (by apply C27_only_make_group).
  intros n h [Hn|Hn] Hs; [by eapply Huniq|].
  assert (exists h2, w_groups (after ops) !! n = Some h2 /\ g_static h2 = (k, a, b)) as (h2 & Hn2 & Hs2); [|by eapply Huniq].
  apply (f_equal (fun x => x !! n)) in Eg. unfold groups_in in Eg. rewrite !list_lookup_fmap, Hn in Eg. destruct (w_groups (after ops) !! n) as [h2|]; [|done].
  injection Eg as Eg. exists h2. split; [done|]. by rewrite <- Eg.
Qed.
(** Let an entity be in two groups of which the first made owns a type of the
    second.  Removing the entity leaves it counted in the second: the size its
    query says does not change, and if the query still answers, it answers as
    many items as before. *)
Theorem C31_bad_order ops id ord i j g k a b t ma mb : rules ops ->
  groups_of (seen ops) !! i = Some g -> groups_of (seen ops) !! j = Some (k, a, b) -> i < j -> owns g t -> t = a \/ t = b ->
  in_group (seen ops) g.1.1 g.1.2 g.2 id -> in_group (seen ops) k a b id ->
  answer ops (RemoveEntity id ord) = Ret OUnit ->
  let ops' := ops ++ [RemoveEntity id ord] in
  use ops' (QGroup k ma mb a b) [CHint] = use ops (QGroup k ma mb a b) [CHint] /\
  forall l l', answers ops (QGroup k ma mb a b) l -> answers ops' (QGroup k ma mb a b) l' -> length l' = length l.
Proof.
  intros L Hi Hj Hij Ho Ht Hmi Hmj Hr ops'. destruct (bad_order ops id ord i j g k a b t L Hi Hj Hij Ho Ht Hmi Hmj Hr) as (gj & G1 & G2 & S & U).
  fold ops' in G2, U. split.
  - destruct (reached ops L) as [HR A].
    assert (good (after ops)) as Gd by (by eapply R_good).
    assert (good (after ops')) as Gd'.
    { unfold ops'. rewrite after_snoc. apply (good_step _ (RemoveEntity id ord)); done. }
    assert (forall x, is_Some (w_comps (after ops) !! x) <-> is_Some (w_comps (after ops') !! x)) as Hreg.
    { intros x. rewrite !(so_reg _ _ (sound_all _)). unfold ops'. rewrite seen_snoc. unfold types_of. rewrite foldl_app. simpl. done. }
    assert (is_Some (w_comps (after ops) !! a) /\ is_Some (w_comps (after ops) !! b)) as [Ra Rb].
    { destruct Hmj as ([x Hx] & [y Hy] & _). rewrite (ag_val _ _ A) in Hx, Hy.
      unfold comp in Hx, Hy. pose proof (R_st _ _ HR a) as Sa. pose proof (R_st _ _ HR b) as Sb.
      destruct (a_comps (aexec ops a_init) !! a); [|done]. destruct (a_comps (aexec ops a_init) !! b); [|done].
      destruct (w_comps (after ops) !! a); [|done]. destruct (w_comps (after ops) !! b); [|done]. eauto. }
    unfold use. rewrite (hint_of (after ops) k ma mb a b j gj) by eauto. rewrite (hint_of (after ops') k ma mb a b j gj); [done|done|by apply Hreg|by apply Hreg|done|done|eauto].
  - intros l l' Hl Hl'.
    unfold answers, answer in Hl, Hl'. apply query_count in Hl as (n & h & Hn & Hs & ->). apply query_count in Hl' as (n' & h' & Hn' & Hs' & ->).
    pose proof (U n h (or_introl Hn) Hs) as ->. pose proof (U n' h' (or_intror Hn') Hs') as ->. rewrite G1 in Hn. rewrite G2 in Hn'. congruence.
Qed.

(** ** C32: batch attach and single attach *)
(** A batch attach never puts an entity into an owning group, nor takes one
    out: the group's query answers what it answered before. *)
Theorem C32_batch_exact ops lo hi t vs k ma mb a b l : rules (ops ++ [BatchAttach lo hi t vs]) ->
  (k, a, b) ∈ groups_of (seen ops) -> k <> KNon ->
  answers ops (QGroup k ma mb a b) l ->
  exists l', answers (ops ++ [BatchAttach lo hi t vs]) (QGroup k ma mb a b) l' /\ l' ≡ₚ l.
Proof.
  intros L Hg Hk Hl. pose proof L as [L1 (_ & _ & Lf)]%rules_snoc. destruct (reached ops L1) as [HR A].
  destruct (group_query ops k ma mb a b L1 Hg) as (l0 & E & N & X); [done|].
  unfold answers, answer in Hl. rewrite E in Hl. injection Hl as ->.
  assert ((k, a, b) ∈ groups_of (seen (ops ++ [BatchAttach lo hi t vs]))) as Hg'.
  { rewrite seen_snoc. unfold groups_of. rewrite foldl_app. simpl. done. }
  destruct (group_query _ k ma mb a b L Hg') as (l' & E' & N' & X'); [done|].
  exists l'. split; [unfold answers, answer; by rewrite E'|].
  apply NoDup_Permutation; [by eapply NoDup_fmap_1..|]. intros [i x]. rewrite X', X, seen_snoc. unfold in_group, both_vals.
  rewrite !value_snoc, left_snoc. cbn [comp_event left_event]. destruct (answer ops (BatchAttach lo hi t vs)) as [r| | |]; [|done..].
  destruct (decide ((t = a \/ t = b) /\ lo <= i < hi)) as [[Ht Hi]|Hn].
  - split; [intros [(_ & _ & ?) _]; done|]. intros [(V1 & V2 & _) _]. exfalso. specialize (Lf i Hi).
    rewrite <- (ag_val _ _ A) in Lf. destruct Ht as [->| ->]; [rewrite Lf in V1; by destruct V1|rewrite Lf in V2; by destruct V2].
  - rewrite !decide_False by tauto. done.
Qed.
(** Attaching one of the two types again, alone, puts the entity in. *)
Theorem C32_attach_heals ops t id v k ma mb a b : rules (ops ++ [Attach t id v]) ->
  (k, a, b) ∈ groups_of (seen ops) -> k <> KNon -> t = a \/ t = b ->
  answer ops (Attach t id v) = Ret OUnit ->
  let ops' := ops ++ [Attach t id v] in
  is_Some (value_of (seen ops') a id) -> is_Some (value_of (seen ops') b id) ->
  exists l x, answers ops' (QGroup k ma mb a b) l /\ (id, x) ∈ l /\ both_vals (value_of (seen ops')) a b id = Some x.
Proof.
  intros L Hg Hk Ht Hr ops' Ha Hb.
  assert ((k, a, b) ∈ groups_of (seen ops')) as Hg'.
  { unfold ops'. rewrite seen_snoc. unfold groups_of. rewrite foldl_app. simpl. done. }
  destruct (group_query _ k ma mb a b L Hg') as (l & E & N & X); [done|].
  destruct Ha as [va Ha], Hb as [vb Hb]. exists l, (V2 (VLeaf va) (VLeaf vb)). split; [unfold answers, answer; unfold ops'; by rewrite E|].
  assert (both_vals (value_of (seen ops')) a b id = Some (V2 (VLeaf va) (VLeaf vb))) as B by (unfold both_vals; by rewrite Ha, Hb).
  split; [|done]. apply X. fold ops'. split; [|done]. split; [by eexists|]. split; [by eexists|].
  unfold ops'. rewrite seen_snoc, left_snoc, Hr. cbn [left_event]. by rewrite decide_True.
Qed.
End groups.

(** ** Cases *)
(** Removing entity 1 leaves the second group one too many: instead of one item
    its query yields two, one of them an entity that was never put into it. *)
Definition h31b : list (op nat) :=
  [Register 1; Register 2; Register 3; CreateEntities 3;
   Attach 1 1 11; Attach 2 1 21; Attach 3 1 31; Attach 1 2 12; Attach 2 2 22; Attach 3 2 32;
   MakeGroup KFull 1 2; MakeGroup KPart 3 1; BatchAttach 3 4 3 [33]; BatchAttach 3 4 1 [13]].
Lemma C31_bad_order_case : rules h31b /\
  groups_of (seen h31b) = [(KFull, 1, 2); (KPart, 3, 1)] /\
  in_group (seen h31b) KFull 1 2 1 /\ in_group (seen h31b) KPart 3 1 1 /\
  answer h31b (RemoveEntity 1 [1; 3; 2]) = Ret OUnit /\
  let q := QGroup KPart false false 3 1 in
  use h31b q [CHint] = Ret [AHint (Some 2)] /\
  answer h31b (Query q) = Ret (OItems [(1, V2 (VLeaf 31) (VLeaf 11)); (2, V2 (VLeaf 32) (VLeaf 12))]) /\
  answer (h31b ++ [RemoveEntity 1 [1; 3; 2]]) (Query q) = Ret (OItems [(3, V2 (VLeaf 33) (VLeaf 13)); (2, V2 (VLeaf 32) (VLeaf 12))]).
Proof.
  split; [check_rules|]. split; [by_compute|].
  split; [split; [eexists; vm_compute; reflexivity|split; [eexists; vm_compute; reflexivity|vm_compute; reflexivity]]|].
  split; [split; [eexists; vm_compute; reflexivity|split; [eexists; vm_compute; reflexivity|vm_compute; reflexivity]]|].
  split; [vm_compute; reflexivity|]. cbn zeta. split; [vm_compute; reflexivity|]. split; vm_compute; reflexivity.
Qed.
(** An entity that got both types by batch attach stays out, until one of the
    two is attached again. *)
Definition h32b : list (op nat) :=
  [Register 1; Register 2; MakeGroup KFull 1 2; CreateEntities 2; Attach 1 1 11; Attach 2 1 21; BatchAttach 2 3 1 [12]].
Lemma C32_batch_case : let q := QGroup KFull false false 1 2 in
  let batch := BatchAttach 2 3 2 [22] in let again := Attach 2 2 23 in
  rules (h32b ++ [batch]) /\ (KFull, 1, 2) ∈ groups_of (seen h32b) /\
  answer h32b (Query q) = Ret (OItems [(1, V2 (VLeaf 11) (VLeaf 21))]) /\
  answer (h32b ++ [batch]) (Query q) = Ret (OItems [(1, V2 (VLeaf 11) (VLeaf 21))]) /\
  rules ((h32b ++ [batch]) ++ [again]) /\ answer (h32b ++ [batch]) again = Ret OUnit /\
  answer ((h32b ++ [batch]) ++ [again]) (Query q) = Ret (OItems [(1, V2 (VLeaf 11) (VLeaf 21)); (2, V2 (VLeaf 12) (VLeaf 23))]).
Proof.
  cbn zeta. split; [check_rules|]. split; [by_compute|]. split; [vm_compute; reflexivity|]. split; [vm_compute; reflexivity|].
  split; [check_rules|]. split; vm_compute; reflexivity.
Qed.

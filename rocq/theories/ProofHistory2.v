(** The groups of the abstract world, read off the history: members and
    freshness; and when a query can be opened. *)
From stdpp Require Import prelude list gmap.
From Verif Require Import Base Api ModelSparse ModelEntity ModelGroup ModelWorld ModelQuery ModelStep
  Spec History ProofSparse ProofEntity ProofGroup ProofWorld ProofOps ProofOps2 ProofRemove
  ProofQuery ProofQuery2 ProofQuery3 ProofQueryMut ProofMain ProofHistory ProofQuery4.

Section hist2.
Context {V : Type}.
Implicit Types (h : history V) (aw : aworld V) (w : world V).

Lemma left_snoc h ev k a b id : left_out (h ++ [ev]) k a b id = left_event k a b id (left_out h k a b id) ev.
Proof. unfold left_out. by rewrite foldl_app. Qed.
Lemma undisturbed_snoc h ev a b : undisturbed (h ++ [ev]) a b ->
  undisturbed h a b /\ ((KNon, a, b) ∈ groups_of h -> ~ disturbs h a b ev).
Proof.
  intros U. split.
  - intros h1 e h2 -> Hg. apply (U h1 e (h2 ++ [ev])); [|done]. by rewrite <- app_assoc.
  - intros Hg. by apply (U h ev []).
Qed.

Record agree2 h aw : Prop := {
  ag_left : forall g id, g ∈ a_groups aw ->
    id ∈ ag_mem g <-> has aw (ag_a g) id /\ has aw (ag_b g) id /\
      left_out h (ag_kind g) (ag_a g) (ag_b g) id = false;
  ag_undist : forall g, g ∈ a_groups aw -> ag_kind g = KNon -> undisturbed h (ag_a g) (ag_b g) -> ag_fresh g = true
}.

Lemma owns_ag g t : owns (gkey g) t <-> ag_owns g t = true.
Proof.
  unfold owns, gkey, ag_owns. destruct (ag_kind g); rewrite ?orb_true_iff, ?Nat.eqb_eq; [|naive_solver|done].
  split; intros [?|?]; auto.
Qed.
Lemma types_ag g t : ag_types g t = true <-> t = ag_a g \/ t = ag_b g.
Proof. unfold ag_types. rewrite orb_true_iff, !Nat.eqb_eq. naive_solver. Qed.
Lemma reorders_ag h aw g t : groups_of h = gkey <$> a_groups aw ->
  reorders h (ag_a g) (ag_b g) t <-> reordered (a_groups aw) t g = true.
Proof.
  intros E. unfold reorders, reordered. rewrite existsb_exists. rewrite E. split.
  - intros (k & a & b & Hin & Ht & Ho). apply elem_of_list_fmap in Hin as (g' & Eg & Hin).
    exists g'. split; [by apply elem_of_list_In|]. rewrite Eg in Ho. apply andb_true_iff. split.
    + apply types_ag. unfold gkey in Eg. injection Eg as -> -> ->. done.
    + apply orb_true_iff. rewrite !owns_ag in Ho. done.
  - intros (g' & Hin & Hx). apply andb_true_iff in Hx as [Ht Ho]. exists (ag_kind g'), (ag_a g'), (ag_b g').
    split; [apply elem_of_list_fmap; exists g'; split; [done|by apply elem_of_list_In]|].
    split; [by apply types_ag|]. apply orb_true_iff in Ho. change (ag_kind g', ag_a g', ag_b g') with (gkey g'). rewrite !owns_ag. done.
Qed.

(** calls that leave the groups alone *)
Lemma agree2_same h aw o r : agree2 h aw -> a_groups (anext aw o) = a_groups aw ->
  (forall t id, has (anext aw o) t id <-> has aw t id) ->
  (forall g id, g ∈ a_groups aw -> left_event (ag_kind g) (ag_a g) (ag_b g) id (left_out h (ag_kind g) (ag_a g) (ag_b g) id) (o, r) = left_out h (ag_kind g) (ag_a g) (ag_b g) id) ->
  agree2 (h ++ [(o, r)]) (anext aw o).
Proof.
  intros A Eg Hh Hl. split; rewrite Eg.
  - intros g id Hg. rewrite left_snoc, Hl, !Hh by done. by apply A.
  - intros g Hg Hk U. apply undisturbed_snoc in U as [U _]. by apply A.
Qed.

Lemma refused_same aw k a b g : group_refused aw k a b = false -> g ∈ a_groups aw ->
  ~ (k = ag_kind g /\ a = ag_a g /\ b = ag_b g).
Proof.
  intros Hr Hg (-> & -> & ->). unfold group_refused in Hr. apply orb_false_iff in Hr as [Hr _].
  assert (existsb (ag_same (ag_kind g) (ag_a g) (ag_b g)) (a_groups aw) = true) as X; [|congruence].
  apply existsb_exists. exists g. split; [by apply elem_of_list_In|]. unfold ag_same.
  rewrite !Nat.eqb_refl. by destruct (ag_kind g).
Qed.

Lemma both_elem aw a b id : id ∈ both aw a b <-> has aw a id /\ has aw b id.
Proof.
  unfold both, has, comp. rewrite elem_of_intersection, !elem_of_dom.
  destruct (a_comps aw !! a), (a_comps aw !! b); simpl; rewrite ?lookup_empty; done.
Qed.

Lemma agree2_step w h aw o : R w aw -> agree h aw -> agree2 h aw -> legal aw o ->
  agree2 (h ++ [(o, (step o w).1)]) (anext aw o).
Proof.
  intros H A A2 L. pose proof (step_ok w aw o H L) as [O H']. generalize dependent (step o w).1. intros rr O.
  pose proof (val_step w aw o rr H L O) as Vs.
  assert (forall t id, has (anext aw o) t id <-> is_Some (comp_event t id (comp aw t id) (o, rr))) as Hh.
  { intros t id. unfold has. by rewrite Vs. }
  destruct o; try (apply agree2_same; [done|done|done|done]).
  - (* Register *) apply agree2_same; [done| | |done].
    + cbn [anext]. by case_decide.
    + intros t0 id. rewrite Hh. simpl. done.
  - (* CreateEntity *) apply agree2_same; [done| | |done]; cbn [anext]; by destruct (a_free aw).
  - (* RemoveEntity *)
    cbn [aout] in O. cbn [anext] in *. destruct (decide (live aw id)) as [C|C].
    2:{ subst rr. split.
        - intros g i Hg. rewrite left_snoc. simpl. by apply A2.
        - intros g Hg Hk U. apply undisturbed_snoc in U as [U _]. by apply A2. }
    subst rr. split.
    + intros g i Hg. cbn [a_remove a_groups] in Hg. apply elem_of_list_fmap in Hg as (g0 & -> & Hg0).
      rewrite left_snoc, !Hh. simpl. rewrite elem_of_difference, elem_of_singleton, (ag_left _ _ A2) by done.
      destruct (decide (id = i)) as [->|Hne]; [|unfold has; naive_solver].
      split; [naive_solver|]. intros [[? ?] _]. done.
    + intros g Hg Hk U. cbn [a_remove a_groups] in Hg. apply elem_of_list_fmap in Hg as (g0 & -> & Hg0).
      apply undisturbed_snoc in U as [U D]. simpl in *. rewrite (ag_undist _ _ A2 g0) by done. simpl.
      assert ((KNon, ag_a g0, ag_b g0) ∈ groups_of h) as Hin.
      { rewrite (ag_grp _ _ A). apply elem_of_list_fmap. exists g0. split; [unfold gkey; by rewrite Hk|done]. }
      specialize (D Hin). rewrite !(ag_val _ _ A) in D.
      rewrite !bool_decide_eq_false_2; [done|..]; unfold has; tauto.
  - (* Attach *)
    cbn [aout] in O. cbn [anext] in *.
    assert (rr = Panic -> agree2 (h ++ [(Attach t id v, rr)]) aw) as Hp.
    { intros ->. split.
      - intros g i Hg. rewrite left_snoc. simpl. by apply A2.
      - intros g Hg Hk U. apply undisturbed_snoc in U as [U _]. by apply A2. }
    destruct (a_exist_cases aw id) as [E|[E|E]]; rewrite E in *; [|by apply Hp..].
    destruct (decide (registered aw t)) as [Hr|Hr]; [|by apply Hp]. clear Hp. subst rr. split.
    + intros g i Hg. cbn [a_attach a_set_groups a_groups] in Hg. apply elem_of_list_fmap in Hg as (g0 & -> & Hg0).
      rewrite left_snoc, !Hh. cbn [g_attach ag_mem ag_kind ag_a ag_b left_event].
      assert (forall u, has (a_set_slots t (S id) (a_put t id v aw)) u id <-> t = u \/ has aw u id) as Hu.
      { intros u. unfold has, a_set_slots, a_put. simpl. unfold comp at 1. simpl.
        destruct (decide (t = u)) as [->|Hne].
        - rewrite lookup_alter. destruct Hr as [m Hm]. rewrite Hm. simpl. rewrite lookup_insert. split; [tauto|]. eauto.
        - rewrite lookup_alter_ne by done. unfold comp. tauto. }
      destruct (decide (id = i)) as [->|Hne].
      * destruct (ag_types g0 t) eqn:Et; simpl.
        -- pose proof (proj1 (types_ag _ _) Et) as Ht. rewrite (decide_True (P := (_ \/ _) /\ _)) by (split; done).
           assert (forall u, is_Some (comp_event u i (comp aw u i) (Attach t i v, Ret OUnit)) <-> t = u \/ has aw u i) as Hv.
           { intros u. simpl. unfold has. destruct (decide (t = u /\ i = i)) as [[-> _]|Hn]; [split; [tauto|eauto]|].
             split; [tauto|]. intros [->|?]; [tauto|done]. }
           simpl in Hv. rewrite !Hv. rewrite <- !Hu.
           case_bool_decide as B1; [|split; [|tauto]]; [case_bool_decide as B2; [split; [done|set_solver]|split; [|tauto]]|]; simpl.
           ++ intros Hm. apply (ag_left _ _ A2) in Hm as (_ & Hm & _); [|done]. rewrite Hu in B2. tauto.
           ++ intros Hm. apply (ag_left _ _ A2) in Hm as (Hm & _ & _); [|done]. rewrite Hu in B1. tauto.
        -- assert (t <> ag_a g0 /\ t <> ag_b g0) as [N1 N2].
           { split; intros ->; apply not_true_iff_false in Et; apply Et; apply types_ag; tauto. }
           rewrite !decide_False by tauto. by apply A2.
      * cbn [comp_event]. rewrite !decide_False by tauto. transitivity (i ∈ ag_mem g0); [case_match; set_solver|by apply A2].
    + intros g Hg Hk U. cbn [a_attach a_set_groups a_groups] in Hg. apply elem_of_list_fmap in Hg as (g0 & -> & Hg0).
      apply undisturbed_snoc in U as [U D]. simpl in *. rewrite (ag_undist _ _ A2 g0) by done. simpl.
      assert ((KNon, ag_a g0, ag_b g0) ∈ groups_of h) as Hin.
      { rewrite (ag_grp _ _ A). apply elem_of_list_fmap. exists g0. split; [unfold gkey; by rewrite Hk|done]. }
      specialize (D Hin). rewrite (reorders_ag _ _ _ _ (ag_grp _ _ A)) in D.
      destruct (reordered (a_groups aw) t g0); [|done]. done.
  - (* Detach *)
    cbn [aout] in O. cbn [anext] in *.
    assert (rr = Panic \/ (rr = Ret (OVal None) /\ comp aw t id = None) -> agree2 (h ++ [(Detach t id, rr)]) aw) as Hp.
    { intros Hrr. split.
      - intros g i Hg. rewrite left_snoc. simpl. by apply A2.
      - intros g Hg Hk U. apply undisturbed_snoc in U as [U _]. by apply A2. }
    destruct (a_exist_cases aw id) as [E|[E|E]]; rewrite E in *; [|by apply Hp; left..].
    destruct (decide (registered aw t)) as [Hr|Hr].
    2:{ subst rr. destruct (decide (has aw t id)) as [[v Hv]|?]; [|by apply Hp; left]. destruct Hr. unfold registered.
        unfold comp in Hv. destruct (a_comps aw !! t); [eauto|done]. }
    destruct (comp aw t id) as [v|] eqn:Ec.
    2:{ rewrite decide_False by (unfold has; rewrite Ec; by intros [? ?]). apply Hp. destruct (decide (id = a_slots aw t)); [by left|by right]. }
    rewrite decide_True in * by (unfold has; eauto). clear Hp. subst rr. split.
    + intros g i Hg. cbn [a_detach a_set_groups a_groups] in Hg. apply elem_of_list_fmap in Hg as (g0 & -> & Hg0).
      rewrite left_snoc, !Hh. cbn [g_detach ag_mem ag_kind ag_a ag_b left_event comp_event].
      destruct (ag_types g0 t) eqn:Et.
      * pose proof (proj1 (types_ag _ _) Et) as Ht. rewrite elem_of_difference, elem_of_singleton, (ag_left _ _ A2) by done.
        destruct (decide (id = i)) as [->|Hne]; [|rewrite !decide_False by tauto; unfold has; naive_solver].
        split; [naive_solver|]. intros (X1 & X2 & _).
        destruct Ht as [Ht|Ht]; [rewrite decide_True in X1 by done; by destruct X1|].
        rewrite (decide_True (P := t = ag_b g0 /\ i = i)) in X2 by done. by destruct X2.
      * assert (t <> ag_a g0 /\ t <> ag_b g0) as [N1 N2].
        { split; intros ->; apply not_true_iff_false in Et; apply Et; apply types_ag; tauto. }
        rewrite !decide_False by tauto. by apply A2.
    + intros g Hg Hk U. cbn [a_detach a_set_groups a_groups] in Hg. apply elem_of_list_fmap in Hg as (g0 & -> & Hg0).
      apply undisturbed_snoc in U as [U D]. simpl in *. rewrite (ag_undist _ _ A2 g0) by done. simpl.
      assert ((KNon, ag_a g0, ag_b g0) ∈ groups_of h) as Hin.
      { rewrite (ag_grp _ _ A). apply elem_of_list_fmap. exists g0. split; [unfold gkey; by rewrite Hk|done]. }
      specialize (D Hin). rewrite (reorders_ag _ _ _ _ (ag_grp _ _ A)) in D.
      destruct (reordered (a_groups aw) t g0); [tauto|]. simpl.
      destruct (ag_types g0 t) eqn:Et; [|done]. apply types_ag in Et. tauto.
  - (* BatchAttach *)
    cbn [aout legal] in O, L. cbn [anext] in *.
    destruct (decide (registered aw t /\ length vs = hi - lo)) as [[Hr Hlen]|C].
    2:{ subst rr. split.
        - intros g i Hg. rewrite left_snoc. simpl. by apply A2.
        - intros g Hg Hk U. apply undisturbed_snoc in U as [U _]. by apply A2. }
    assert (a_groups (a_batch lo hi t vs aw) = a_groups aw) as Eg by (unfold a_batch; by destruct (lo <? hi)).
    subst rr. split; rewrite Eg.
    + intros g i Hg. rewrite left_snoc, !Hh. simpl.
      destruct (decide ((t = ag_a g \/ t = ag_b g) /\ lo <= i < hi)) as [[Ht Hi]|Hn].
      * split; [|naive_solver]. intros Hm. apply (ag_left _ _ A2) in Hm as (M1 & M2 & _); [|done].
        destruct L as (_ & _ & L). specialize (L i Hi). unfold has in *. destruct Ht as [->| ->]; rewrite L in *; by destruct M1, M2.
      * rewrite !decide_False by tauto. by apply A2.
    + intros g Hg Hk U. apply undisturbed_snoc in U as [U _]. by apply A2.
  - (* WriteComp *)
    cbn [aout] in O. subst rr. apply agree2_same; [done| |intros t0 id0; rewrite Hh|done].
    + cbn [anext]. by case_decide.
    + simpl. case_bool_decide as B; [|done]. case_decide as D; [|done]. destruct D as [-> ->]. split; [done|]. eauto.
  - (* StoreGetMut *)
    cbn [aout] in O. subst rr. apply agree2_same; [done| |intros t0 id0; rewrite Hh|done].
    + cbn [anext]. by case_decide.
    + simpl. case_bool_decide as B; [|done]. case_decide as D; [|done]. destruct D as [-> ->]. split; [done|]. eauto.
  - (* MakeGroup *)
    cbn [aout] in O. cbn [anext] in *. destruct (group_refused aw k a b) eqn:Er.
    { subst rr. split.
      - intros g i Hg. rewrite left_snoc. simpl. by apply A2.
      - intros g Hg Hk U. apply undisturbed_snoc in U as [U _]. by apply A2. }
    subst rr. split.
    + intros g i Hg. cbn [a_make a_set_groups a_groups] in Hg. apply elem_of_app in Hg as [Hg|Hg].
      * apply elem_of_list_fmap in Hg as (g0 & -> & Hg0). rewrite left_snoc. cbn [g_made ag_mem ag_kind ag_a ag_b left_event].
        rewrite decide_False by (by apply (refused_same aw)). rewrite !Hh. simpl. by apply A2.
      * apply elem_of_list_singleton in Hg as ->. cbn [ag_mem ag_kind ag_a ag_b]. rewrite left_snoc. simpl.
        rewrite decide_True by done. rewrite both_elem. unfold has. simpl. tauto.
    + intros g Hg Hk U. cbn [a_make a_set_groups a_groups] in Hg. apply elem_of_app in Hg as [Hg|Hg].
      * apply elem_of_list_fmap in Hg as (g0 & -> & Hg0). apply undisturbed_snoc in U as [U D]. cbn [g_made ag_a ag_b ag_kind ag_fresh disturbs] in *.
        rewrite (ag_undist _ _ A2 g0) by done. rewrite andb_true_l.
        assert ((KNon, ag_a g0, ag_b g0) ∈ groups_of h) as Hin.
        { rewrite (ag_grp _ _ A). apply elem_of_list_fmap. exists g0. split; [unfold gkey; by rewrite Hk|done]. }
        specialize (D Hin). change (k, a, b) with (gkey (AG k a b (both aw a b) true)) in D. rewrite !owns_ag in D.
        destruct (ag_owns (AG k a b (both aw a b) true) (ag_a g0)); [tauto|].
        by destruct (ag_owns (AG k a b (both aw a b) true) (ag_b g0)); [tauto|].
      * by apply elem_of_list_singleton in Hg as ->.
  - (* QueryMut *)
    apply agree2_same; [done| | |done].
    + cbn [anext]. by destruct (a_open aw q).
    + intros t0 id0. rewrite Hh. unfold has. simpl. destruct rr as [[]| | |]; try done. case_decide; [|done]. by rewrite fmap_is_Some.
  - (* WriteRes *)
    apply agree2_same; [done| |intros; rewrite Hh; by simpl|done]. cbn [anext]. by case_decide.
Qed.

Lemma agree2_exec_from ops : forall w h aw, R w aw -> agree h aw -> agree2 h aw -> legal_all ops aw ->
  agree2 (h ++ trace ops w) (aexec ops aw).
Proof.
  induction ops as [|o ops IH]; intros w h aw H A A2 L; simpl.
  - by rewrite app_nil_r.
  - destruct L as [L1 L2]. rewrite cons_middle, app_assoc. apply IH; [|by apply agree_step|by apply agree2_step|done].
    by apply step_ok.
Qed.
Theorem agree2_exec ops : rules ops -> agree2 (seen ops) (aexec (V := V) ops a_init).
Proof.
  intros L. apply (agree2_exec_from ops w_new [] a_init); [apply R_new|apply agree_init| |done].
  split; simpl; intros g; [intros id|]; by intros ?%elem_of_nil.
Qed.

(** ** Opening *)
Fixpoint clash (held locks : list (nat * bool)) : bool :=
  match locks with
  | [] => false
  | x :: l => existsb (fun y => (y.1 =? x.1) && (y.2 || x.2)) held || clash (x :: held) l
  end.
Fixpoint reqs_okb aw (rs : list req) : bool :=
  match rs with
  | [] => true
  | RType t :: rs' => bool_decide (registered aw t) && reqs_okb aw rs'
  | RLock _ _ :: rs' => reqs_okb aw rs'
  | RGroup k a b :: rs' => existsb (ag_same k a b) (a_groups aw) && reqs_okb aw rs'
  end.
Lemma open_reqs_eq aw rs : forall held,
  (reqs_okb aw rs = true -> open_reqs aw rs held = if clash held (locks_of rs) then Block else Ret tt) /\
  (reqs_okb aw rs = false -> clash held (locks_of rs) = false -> open_reqs aw rs held = Panic) /\
  (reqs_okb aw rs = false -> open_reqs aw rs held = Panic \/ open_reqs aw rs held = Block).
Proof.
  induction rs as [|[t|t m|k a b] rs IH]; intros held; simpl.
  - split; [done|]. done.
  - case_bool_decide as B; [rewrite decide_True by done|rewrite decide_False by done]; simpl; [apply IH|]. split; [done|]. auto.
  - destruct (existsb _ held) eqn:E; simpl; [|apply IH]. split; [done|]. split; [done|]. auto.
  - destruct (existsb _ (a_groups aw)); simpl; [apply IH|]. split; [done|]. auto.
Qed.
Lemma locks_refs q : locks_of (q_reqs q) = q_refs q.
Proof. induction q; simpl; rewrite ?locks_of_app; congruence. Qed.
Lemma reqs_okb_app aw r1 r2 : reqs_okb aw (r1 ++ r2) = reqs_okb aw r1 && reqs_okb aw r2.
Proof. induction r1 as [|[] r1 IH]; simpl; rewrite ?IH, ?andb_assoc; done. Qed.
Lemma same_key k a b (gs : list agroup) : existsb (ag_same k a b) gs = true <-> (k, a, b) ∈ gkey <$> gs.
Proof.
  rewrite existsb_exists, elem_of_list_fmap. split.
  - intros (g & Hin & E). apply ag_same_inv in E as (<- & <- & <-). exists g. split; [done|]. by apply elem_of_list_In.
  - intros (g & E & Hin). exists g. split; [by apply elem_of_list_In|]. unfold gkey in E. injection E as -> -> ->.
    unfold ag_same. rewrite !Nat.eqb_refl. by destruct (ag_kind g).
Qed.
Lemma known_Forall h q : q_known h q <->
  Forall (fun x => x.1 ∈ types_of h) (q_refs q) /\ Forall (fun g => g ∈ groups_of h) (q_groups q).
Proof.
  unfold q_known. rewrite !Forall_forall. split; intros [H1 H2]; (split; [|done]).
  - intros [t m]. apply H1.
  - intros t m. apply (H1 (t, m)).
Qed.
Lemma reqs_known h aw q : agree h aw -> reqs_okb aw (q_reqs q) = true <-> q_known h q.
Proof.
  intros A. rewrite known_Forall.
  induction q as [m t|a IHa b IHb|a IHa b IHb c IHc|a IHa b IHb c IHc d IHd|a IHa b IHb c IHc d IHd e IHe
    |a IHa b IHb|a IHa b IHb|k ma mb a b];
    cbn [q_reqs q_refs q_groups]; rewrite ?reqs_okb_app, ?andb_true_iff, ?IHa, ?IHb, ?IHc, ?IHd, ?IHe, ?Forall_app;
    try tauto.
  - simpl. rewrite andb_true_r, bool_decide_eq_true, Forall_singleton, Forall_nil. simpl.
    rewrite (ag_reg _ _ A). tauto.
  - cbn [reqs_okb]. rewrite andb_true_r, !andb_true_iff, !bool_decide_eq_true, same_key.
    rewrite !Forall_cons, !Forall_nil. simpl. rewrite !(ag_reg _ _ A), (ag_grp _ _ A). tauto.
Qed.
Lemma clash_spec locks : forall held, clash held locks = true <->
  (exists x y, x ∈ held /\ y ∈ locks /\ x.1 = y.1 /\ (x.2 || y.2) = true) \/
  (exists i j t m n, i < j /\ locks !! i = Some (t, m) /\ locks !! j = Some (t, n) /\ (m || n) = true).
Proof.
  induction locks as [|x l IH]; intros held; simpl.
  - split; [done|]. intros [(? & ? & _ & ?%elem_of_nil & _)|(i & j & t & m & n & _ & Hi & _)]; [done|].
    by rewrite lookup_nil in Hi.
  - rewrite orb_true_iff, IH, existsb_exists. split.
    + intros [(y & Hy & E)|[(y & z & Hy & Hz & E1 & E2)|(i & j & t & m & n & Hij & Hi & Hj & E)]].
      * left. apply andb_true_iff in E as [E1 E2]. apply Nat.eqb_eq in E1. exists y, x.
        split; [by apply elem_of_list_In|]. split; [left|]. done.
      * apply elem_of_cons in Hy as [->|Hy].
        -- right. apply elem_of_list_lookup in Hz as [j Hj]. destruct x as [t m], z as [t' n]. simpl in *. subst t'.
           exists 0, (S j), t, m, n. split; [lia|]. done.
        -- left. exists y, z. split; [done|]. split; [by right|]. done.
      * right. exists (S i), (S j), t, m, n. split; [lia|]. done.
    + intros [(y & z & Hy & Hz & E1 & E2)|(i & j & t & m & n & Hij & Hi & Hj & E)].
      * apply elem_of_cons in Hz as [->|Hz].
        -- left. exists y. split; [by apply elem_of_list_In|]. apply andb_true_iff. split; [by apply Nat.eqb_eq|done].
        -- right. left. exists y, z. split; [by right|]. done.
      * right. destruct i as [|i].
        -- injection Hi as ->. destruct j as [|j]; [lia|]. left. exists (t, m), (t, n). split; [left|].
           split; [by apply elem_of_list_lookup; exists j|]. done.
        -- destruct j as [|j]; [lia|]. right. exists i, j, t, m, n. split; [lia|]. done.
Qed.
Lemma clash_conflict q : clash [] (q_refs q) = true <-> q_conflict q.
Proof.
  rewrite clash_spec. unfold q_conflict. split; [|by right].
  intros [(? & ? & ?%elem_of_nil & _)|?]; done.
Qed.
(** When a query can be opened. *)
Lemma open_cases h aw q : agree h aw ->
  (q_known h q -> ~ q_conflict q -> a_open aw q = Ret tt) /\
  (q_known h q -> q_conflict q -> a_open aw q = Block) /\
  (~ q_known h q -> ~ q_conflict q -> a_open aw q = Panic) /\
  (~ q_known h q -> a_open aw q = Panic \/ a_open aw q = Block).
Proof.
  intros A. unfold a_open. rewrite <- (reqs_known _ _ _ A), <- clash_conflict, <- locks_refs.
  destruct (open_reqs_eq aw (q_reqs q) []) as (E1 & E2 & E3). rewrite !not_true_iff_false.
  split; [|split; [|split]].
  - intros K C. rewrite E1 by done. by rewrite C.
  - intros K C. rewrite E1 by done. by rewrite C.
  - intros K C. by apply E2.
  - intros K. by apply E3.
Qed.

(** ** Complete and fresh, from the history *)
Definition g_none_left h (g : gkind * nat * nat) : Prop := forall id,
  is_Some (value_of h g.1.2 id) -> is_Some (value_of h g.2 id) -> left_out h g.1.1 g.1.2 g.2 id = false.
Lemma none_left_Forall h q : q_none_left h q <-> Forall (g_none_left h) (q_groups q).
Proof.
  unfold q_none_left, g_none_left. rewrite Forall_forall. split.
  - intros N [[k a] b] Hg id. by apply N.
  - intros N k a b id Hg. apply (N (k, a, b) Hg).
Qed.
Definition g_undisturbed h (g : gkind * nat * nat) : Prop := g.1.1 = KNon -> undisturbed h g.1.2 g.2.
Lemma undisturbed_Forall h q : q_undisturbed h q <-> Forall (g_undisturbed h) (q_groups q).
Proof.
  unfold q_undisturbed, g_undisturbed. rewrite Forall_forall. split.
  - intros N [[k a] b] Hg. simpl. intros ->. by apply N.
  - intros N a b Hg. by apply (N (KNon, a, b) Hg).
Qed.
Lemma hist_complete h aw q : agree h aw -> agree2 h aw -> q_known h q -> q_none_left h q -> q_complete aw q.
Proof.
  intros A A2 K N. apply known_Forall in K as [_ K]. apply none_left_Forall in N. rewrite (ag_grp _ _ A) in K.
  induction q as [m t|a IHa b IHb|a IHa b IHb c IHc|a IHa b IHb c IHc d IHd|a IHa b IHb c IHc d IHd e IHe
    |a IHa b IHb|a IHa b IHb|k ma mb a b]; simpl in *; rewrite ?Forall_app in K, N; try tauto.
  - assert (existsb (ag_same k a b) (a_groups aw) = true) as Ex by (apply same_key; by inversion K).
    destruct (List.find (ag_same k a b) (a_groups aw)) as [g|] eqn:Ef.
    2:{ exfalso. apply existsb_exists in Ex as (g & Hin & E). pose proof (List.find_none _ _ Ef g Hin). congruence. }
    exists g. split; [done|]. apply List.find_some in Ef as [Hin E]. apply ag_same_inv in E as (<- & <- & <-).
    apply elem_of_list_In in Hin. intros id. rewrite (ag_left _ _ A2) by done. split; [tauto|]. intros [H1 H2].
    split; [done|]. split; [done|]. inversion N as [|? ? N1 _]; subst. apply N1; simpl; by rewrite (ag_val _ _ A).
Qed.
Lemma hist_fresh h aw q : agree h aw -> agree2 h aw -> q_undisturbed h q -> q_fresh aw q = true.
Proof.
  intros A A2 U. apply undisturbed_Forall in U.
  induction q as [m t|a IHa b IHb|a IHa b IHb c IHc|a IHa b IHb c IHc d IHd|a IHa b IHb c IHc d IHd e IHe
    |a IHa b IHb|a IHa b IHb|k ma mb a b]; simpl in *;
    rewrite ?Forall_app in U; rewrite ?andb_true_iff; try tauto.
  - destruct k; [done|done|]. unfold find_agroup. destruct (List.find (ag_same KNon a b) (a_groups aw)) as [g|] eqn:Ef; [|done].
    apply List.find_some in Ef as [Hin E]. apply ag_same_inv in E as (Hk & <- & <-). apply elem_of_list_In in Hin.
    apply (ag_undist _ _ A2); [done|done|]. inversion U as [|? ? U1 _]; subst. by apply U1.
Qed.

End hist2.

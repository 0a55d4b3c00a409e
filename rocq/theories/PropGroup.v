(** Properties of groups: C27-C32, C34.  Vocabulary as in PropQuery.v. *)
From stdpp Require Import prelude list gmap.
From Verif Require Import Base Api ModelSparse ModelEntity ModelGroup ModelWorld ModelQuery ModelStep
  Spec History Rules Samples ProofSparse ProofEntity ProofGroup ProofWorld ProofOps ProofOps2 ProofRemove ProofRemove2
  ProofQuery ProofQuery2 ProofQuery3 ProofQueryMut ProofMain ProofHistory ProofQuery4 ProofHistory2 Checks
  PropEntity PropComp PropWorld PropQuery.

Notation gdesc := (gkind * nat * nat)%type.

Section groups.
Context {V : Type}.
Implicit Types (ops : list (op V)) (t id a b : nat) (v : V) (w : world V).

(** ** C27 *)

(** kind and types of the groups in the world *)
Definition groups_in w : list gdesc := g_static <$> w_groups w.
(** the group [g] cannot be added to [gs]: it is there already, or it would own
    an owned type *)
Definition g_clash (gs : list gdesc) (g : gdesc) : Prop :=
  g ∈ gs \/ exists g' t, g' ∈ gs /\ owns g' t /\ owns g t.

Lemma g_eqb_static g g' : g_eqb g g' = true <-> g_static g = g_static g'.
Proof.
  destruct g, g'; simpl; try done; rewrite andb_true_iff, !Nat.eqb_eq;
    (split; [intros [E1 E2]; by rewrite E1, E2|by intros [= -> ->]]).
Qed.
Lemma g_owned_static g t : g_owned g t = true <-> owns (g_static g) t.
Proof. destruct g; simpl; rewrite ?orb_true_iff, ?Nat.eqb_eq; done. Qed.
Lemma g_owning_static g t : t ∈ g_owning g <-> owns (g_static g) t.
Proof. destruct g; simpl; set_solver. Qed.
Lemma new_group_static k a b : g_static (new_group k a b) = (k, a, b).
Proof. by destruct k. Qed.
Lemma clash_iff k a b w :
  has_group (new_group k a b) w = true \/ owner_conflict (new_group k a b) w = true <->
  g_clash (groups_in w) (k, a, b).
Proof.
  unfold has_group, owner_conflict, g_clash, groups_in. rewrite !existsb_exists.
  setoid_rewrite existsb_exists. setoid_rewrite <- elem_of_list_In. setoid_rewrite elem_of_list_fmap.
  setoid_rewrite g_eqb_static. setoid_rewrite g_owned_static. setoid_rewrite g_owning_static.
  rewrite new_group_static. split.
  - intros [(g & Hg & E)|(g & Hg & t & H1 & H2)]; [left; eauto|right]. exists (g_static g), t. eauto.
  - intros [(g & E & Hg)|(g' & t & (g & -> & Hg) & H1 & H2)]; [left; eauto|right]. exists g. eauto.
Qed.
Lemma make_group_clash k a b w : g_clash (groups_in w) (k, a, b) -> make_group k a b w = (Panic, w).
Proof.
  rewrite <- clash_iff. intros C. unfold make_group. rewrite bind_get.
  destruct (has_group (new_group k a b) w); [by rewrite bind_assert_false|]. rewrite bind_assert_true by done.
  destruct (owner_conflict (new_group k a b) w); [by rewrite bind_assert_false|]. destruct C; done.
Qed.
Lemma make_group_new k a b w : ~ g_clash (groups_in w) (k, a, b) ->
  groups_in (make_group k a b w).2 = groups_in w ++ [(k, a, b)].
Proof.
  rewrite <- clash_iff. intros C. destruct (make_group_keeps k a b w) as (gs & _ & _ & E & Hgs & Hp).
  unfold groups_in. rewrite E. destruct Hgs as [-> | ->]; [|done].
  specialize (Hp eq_refl). unfold make_group in *. rewrite bind_get in *.
  destruct (has_group (new_group k a b) w); [tauto|]. rewrite bind_assert_true in * by done.
  destruct (owner_conflict (new_group k a b) w); [tauto|]. rewrite bind_assert_true, bind_put in * by done.
  exfalso.
  pose proof (pres_run_group (length (w_groups w)) full_make part_make non_make gp_full_make gp_part_make gp_non_make
    (set_groups (w_groups w ++ [new_group k a b]) w)) as [_ K2 _]. rewrite Hp in K2. simpl in K2.
  apply (f_equal length) in K2. rewrite fmap_app, app_length, !fmap_length in K2. simpl in K2. lia.
Qed.

(** After any history: [make_group] of a group that exists, or that would own an
    owned type, panics and changes nothing; otherwise there is one more group
    in the world (also if the call then fails, see C34). *)
Theorem C27_refused_iff ops k a b :
  (g_clash (groups_in (after ops)) (k, a, b) ->
     step (MakeGroup k a b) (after ops) = (Panic, after ops)) /\
  (~ g_clash (groups_in (after ops)) (k, a, b) ->
     groups_in (after (ops ++ [MakeGroup k a b])) = groups_in (after ops) ++ [(k, a, b)]).
Proof.
  rewrite after_snoc. cbn [step]. unfold fmapM, bind. split.
  - intros C. by rewrite make_group_clash.
  - intros C. pose proof (make_group_new k a b (after ops) C) as E.
    destruct (make_group k a b (after ops)) as [[] w']; done.
Qed.
(** So no other call changes the groups of the world. *)
Theorem C27_only_make_group ops o : (forall k a b, o <> MakeGroup k a b) ->
  groups_in (after (ops ++ [o])) = groups_in (after ops).
Proof.
  intros Ho. rewrite after_snoc. destruct (special o) eqn:Es.
  2:{ by apply pres_step. }
  destruct o; try done.
  - cbn [step]. unfold fmapM, bind. rewrite register_eq. by destruct (has_registered t (after ops)).
  - by destruct (Ho k a b).
  - cbn [step]. unfold fmapM, resource_write, bind, get. destruct (w_res (after ops) !! r) as [x|]; [|done].
    by destruct (rv_ty x =? r).
Qed.
(** At every time every type is owned by at most one group, and no group is
    there twice. *)
Theorem C27_one_owner ops i j g g' :
  groups_in (after ops) !! i = Some g -> groups_in (after ops) !! j = Some g' -> i <> j ->
  g <> g' /\ forall t, ~ (owns g t /\ owns g' t).
Proof.
  revert i j g g'. induction ops as [|o ops IH] using rev_ind; intros i j g g' Hi Hj Hne.
  { by destruct i. }
  destruct o; try (rewrite C27_only_make_group in Hi, Hj by done; exact (IH i j g g' Hi Hj Hne)).
  destruct (C27_refused_iff ops k a b) as [C1 C2].
  assert (g_clash (groups_in (after ops)) (k, a, b) \/ ~ g_clash (groups_in (after ops)) (k, a, b)) as [C|C].
  { rewrite <- clash_iff. destruct (has_group (new_group k a b) (after ops)); [tauto|].
    destruct (owner_conflict (new_group k a b) (after ops)); [tauto|]. right. intros [?|?]; done. }
  { rewrite after_snoc, (C1 C) in Hi, Hj. exact (IH i j g g' Hi Hj Hne). }
  rewrite (C2 C) in Hi, Hj. unfold g_clash in C.
  apply lookup_app_Some in Hi. apply lookup_app_Some in Hj. destruct Hi as [Hi|[Li Hi]], Hj as [Hj|[Lj Hj]].
  - exact (IH i j g g' Hi Hj Hne).
  - apply list_lookup_singleton_Some in Hj as [_ <-]. apply elem_of_list_lookup_2 in Hi.
    split; [intros ->; tauto|]. intros t [O1 O2]. apply C. right. eauto 6.
  - apply list_lookup_singleton_Some in Hi as [_ <-]. apply elem_of_list_lookup_2 in Hj.
    split; [intros <-; tauto|]. intros t [O1 O2]. apply C. right. eauto 6.
  - apply list_lookup_singleton_Some in Hi as [Hi _]. apply list_lookup_singleton_Some in Hj as [Hj _]. lia.
Qed.
(** In histories that keep the rules the groups are those whose [make_group]
    returned; a [make_group] that does not clash, of registered types (two
    different ones, if owning), returns. *)
Lemma static_groups ops : rules ops -> groups_in (after ops) = groups_of (seen ops).
Proof.
  intros L. destruct (reached ops L) as [H A]. rewrite (ag_grp _ _ A). unfold groups_in.
  pose proof (R_gr _ _ H) as F. induction F as [|g ag gs ags [St _ _] _ IH]; [done|]. rewrite !fmap_cons, IH. f_equal.
  unfold gkey. destruct g; simpl in *; destruct St as (-> & -> & ->); done.
Qed.
Theorem C27_rules ops k a b : rules ops ->
  groups_in (after ops) = groups_of (seen ops) /\
  (~ g_clash (groups_of (seen ops)) (k, a, b) -> a ∈ types_of (seen ops) -> b ∈ types_of (seen ops) ->
   a <> b \/ k = KNon -> answer ops (MakeGroup k a b) = Ret OUnit).
Proof.
  intros L. split; [by apply static_groups|]. intros C Ha Hb Hab. destruct (reached ops L) as [H A].
  assert (legal (aexec ops a_init) (MakeGroup k a b)) as Lg.
  { right. by rewrite <- !(ag_reg _ _ A). }
  pose proof (step_ok _ _ _ H Lg) as [O _]. cbn [aout] in O. unfold answer. rewrite O.
  destruct (group_refused (aexec ops a_init) k a b) eqn:E; [|done]. exfalso.
  assert (rules (ops ++ [MakeGroup k a b])) as L' by (by apply rules_snoc).
  pose proof (static_groups _ L') as S. rewrite seen_snoc in S. unfold groups_of in S. rewrite foldl_app in S.
  fold (groups_of (seen ops)) in S. simpl in S. unfold answer in S. rewrite O in S.
  destruct (C27_refused_iff ops k a b) as [_ C2]. rewrite <- (static_groups _ L) in C. rewrite (C2 C) in S.
  rewrite <- (static_groups _ L) in S. apply (f_equal length) in S. rewrite app_length in S. simpl in S. lia.
Qed.

(** ** C28, C29, C30 *)
Lemma group_types ops k a b : rules ops -> (k, a, b) ∈ groups_of (seen ops) ->
  a ∈ types_of (seen ops) /\ b ∈ types_of (seen ops) /\ (k = KNon \/ a <> b).
Proof.
  intros L Hg. destruct (reached ops L) as [H A]. rewrite (ag_grp _ _ A) in Hg.
  apply elem_of_list_fmap in Hg as (g & E & Hg). unfold gkey in E. injection E as -> -> ->.
  apply elem_of_list_lookup in Hg as [i Hi].
  destruct (Forall2_lookup_r _ _ _ _ _ (R_gr _ _ H) Hi) as (g0 & _ & [_ Ne (sa & sb & Ha & Hb & _)]).
  rewrite !(ag_reg _ _ A).
  destruct (srel_Some_r _ _ _ _ _ (R_st _ _ H) Ha) as (m1 & E1 & _).
  destruct (srel_Some_r _ _ _ _ _ (R_st _ _ H) Hb) as (m2 & E2 & _).
  split; [by exists m1|]. split; [by exists m2|done].
Qed.

(** A group query yields exactly the entities in the group ([in_group],
    History.v: having both types, and not left out after a batch attach, C32),
    once each, with their own two components; it changes nothing.  Non-owning
    groups: if undisturbed (C30), and not the same type twice, mutably. *)
Lemma group_query ops k ma mb a b : rules ops -> (k, a, b) ∈ groups_of (seen ops) ->
  (k = KNon -> undisturbed (seen ops) a b /\ (a <> b \/ (ma || mb) = false)) ->
  exists l, step (Query (QGroup k ma mb a b)) (after ops) = (Ret (OItems l), after ops) /\ NoDup l.*1 /\
    forall id x, (id, x) ∈ l <->
      in_group (seen ops) k a b id /\ both_vals (value_of (seen ops)) a b id = Some x.
Proof.
  intros L Hg Hk. destruct (reached ops L) as [H A]. pose proof (agree2_exec ops L) as A2.
  set (q := QGroup k ma mb a b). set (aw := aexec ops a_init) in *.
  destruct (group_types ops k a b L Hg) as (Ta & Tb & Ne).
  assert (q_known (seen ops) q) as K.
  { apply known_Forall. simpl. by repeat constructor. }
  assert (~ q_conflict q) as C.
  { intros C%clash_conflict. simpl in C. rewrite !orb_false_r in C. apply andb_true_iff in C as [C1 C2].
    apply Nat.eqb_eq in C1. destruct Ne as [->|Ne]; [|done]. destruct (Hk eq_refl) as [_ [?|?]]; [done|congruence]. }
  assert (q_fresh aw q = true) as Fr.
  { eapply hist_fresh; [done|done|]. apply undisturbed_Forall. constructor; [|constructor]. intros E. simpl in E. subst k.
    by apply Hk. }
  destruct (open_cases _ _ q A) as (O & _). specialize (O K C).
  pose proof (run_query_order _ _ q H Fr) as S. rewrite O in S. destruct S as (l & E & [N Q] & _).
  exists l. split; [cbn [step]; unfold fmapM, bind, get, lift; fold q; by rewrite E|]. split; [done|].
  intros id x. rewrite Q. rewrite (ag_grp _ _ A) in Hg. apply same_key in Hg.
  unfold q. cbn [q_visits q_get].
  assert (exists g, find_agroup aw k a b = Some g /\ g ∈ a_groups aw /\ ag_kind g = k /\ ag_a g = a /\ ag_b g = b)
    as (g & Ef & Hin & Hkk & Haa & Hbb).
  { unfold find_agroup. fold aw in Hg. rewrite find_existsb in Hg. destruct (List.find _ _) as [g|] eqn:Ef; [|done].
    exists g. apply List.find_some in Ef as [Hin Es]. apply ag_same_inv in Es as (? & ? & ?).
    split; [done|]. split; [by apply elem_of_list_In|]. done. }
  assert (id ∈ ag_mem g <-> in_group (seen ops) k a b id) as Hm.
  { rewrite (ag_left _ _ A2) by done. unfold in_group, has. fold aw. rewrite !(ag_val _ _ A), Hkk, Haa, Hbb. done. }
  assert (forall id, pair_get aw a b id = both_vals (value_of (seen ops)) a b id) as Hp.
  { intros i. unfold pair_get, both_vals. by rewrite !(ag_val _ _ A). }
  rewrite Ef, bool_decide_eq_true, Hm. split.
  - intros [Hi Hx]. split; [done|]. destruct k; [by rewrite <- Hp| by rewrite <- Hp|].
    rewrite Ef in Hx. destruct (decide (id ∈ ag_mem g)); [|done]. by rewrite <- Hp.
  - intros [Hi Hx]. split; [done|]. destruct k; [by rewrite Hp|by rewrite Hp|].
    rewrite Ef, decide_True by (by apply Hm). by rewrite Hp.
Qed.

Theorem C28_full_owning ops ma mb a b : rules ops -> (KFull, a, b) ∈ groups_of (seen ops) ->
  exists l, step (Query (QGroup KFull ma mb a b)) (after ops) = (Ret (OItems l), after ops) /\ NoDup l.*1 /\
    forall id x, (id, x) ∈ l <->
      in_group (seen ops) KFull a b id /\ both_vals (value_of (seen ops)) a b id = Some x.
Proof. intros L Hg. by apply group_query. Qed.
Theorem C29_partial_owning ops ma mb a b : rules ops -> (KPart, a, b) ∈ groups_of (seen ops) ->
  exists l, step (Query (QGroup KPart ma mb a b)) (after ops) = (Ret (OItems l), after ops) /\ NoDup l.*1 /\
    forall id x, (id, x) ∈ l <->
      in_group (seen ops) KPart a b id /\ both_vals (value_of (seen ops)) a b id = Some x.
Proof. intros L Hg. by apply group_query. Qed.
(** Non-owning groups: correct as long as no call could have moved a component
    of one of the two types in its storage since the group was made. *)
Theorem C30_non_owning_partial ops ma mb a b : rules ops -> (KNon, a, b) ∈ groups_of (seen ops) ->
  undisturbed (seen ops) a b -> a <> b \/ (ma || mb) = false ->
  exists l, step (Query (QGroup KNon ma mb a b)) (after ops) = (Ret (OItems l), after ops) /\ NoDup l.*1 /\
    forall id x, (id, x) ∈ l <->
      in_group (seen ops) KNon a b id /\ both_vals (value_of (seen ops)) a b id = Some x.
Proof. intros L Hg U Hab. by apply group_query. Qed.

(** If no entity was left out, that is the join of the two types. *)
Corollary groups_join ops k ma mb a b : rules ops -> (k, a, b) ∈ groups_of (seen ops) ->
  (k = KNon -> undisturbed (seen ops) a b /\ (a <> b \/ (ma || mb) = false)) ->
  (forall id, is_Some (value_of (seen ops) a id) -> is_Some (value_of (seen ops) b id) ->
     left_out (seen ops) k a b id = false) ->
  exists l, answers ops (QGroup k ma mb a b) l /\ exactly (both_vals (value_of (seen ops)) a b) l.
Proof.
  intros L Hg Hk Hn. destruct (group_query ops k ma mb a b L Hg Hk) as (l & E & N & X). exists l.
  split; [unfold answers, answer; by rewrite E|]. split; [done|]. intros id x. rewrite X. unfold in_group. split; [tauto|].
  intros Hx. split; [|done]. unfold both_vals in Hx.
  destruct (value_of (seen ops) a id) eqn:Ea; [|done]. destruct (value_of (seen ops) b id) eqn:Eb; [|done].
  split; [eauto|]. split; [eauto|]. apply Hn; rewrite ?Ea, ?Eb; eauto.
Qed.

(** ** C32 *)

(** Entities that got a type by batch attach before the group was made are in
    the group: after the group is made, and as long as its types are only
    attached one by one, its query is exactly the join.  Missing from C32:
    batch attaches after make_group, for which it is false (C32_batch_refuted);
    what happens then is said exactly by C28_full_owning and C29_partial_owning. *)
Theorem C32_batch_before_partial ops ops' k ma mb a b : let all := (ops ++ [MakeGroup k a b]) ++ ops' in
  rules all -> k <> KNon -> answer ops (MakeGroup k a b) = Ret OUnit ->
  (forall lo hi t vs, BatchAttach lo hi t vs ∈ ops' -> t <> a /\ t <> b) ->
  exists l, answers all (QGroup k ma mb a b) l /\ exactly (both_vals (value_of (seen all)) a b) l.
Proof.
  intros all L Hk Hr Hb. unfold all in *. clear all.
  assert ((k, a, b) ∈ groups_of (seen ((ops ++ [MakeGroup k a b]) ++ ops')) /\
    forall id, left_out (seen ((ops ++ [MakeGroup k a b]) ++ ops')) k a b id = false) as [Hg Hl].
  { clear L. induction ops' as [|o ops' IH] using rev_ind.
    - rewrite app_nil_r, seen_snoc, Hr. split.
      + unfold groups_of. rewrite foldl_app. simpl. apply elem_of_app. right. by left.
      + intros id. rewrite left_snoc. simpl. by rewrite decide_True.
    - destruct IH as [IH1 IH2]; [intros lo hi t vs Hin; apply (Hb lo hi t vs), elem_of_app; by left|].
      rewrite app_assoc, seen_snoc. generalize (answer ((ops ++ [MakeGroup k a b]) ++ ops') o) as r. intros r. split.
      + unfold groups_of in *. rewrite foldl_app. simpl. unfold group_event.
        destruct o; try done; destruct r as [?| | |]; try done. apply elem_of_app. by left.
      + intros id. rewrite left_snoc, IH2. unfold left_event. destruct o; try done; destruct r; try done.
        * by destruct (decide _).
        * destruct (Hb lo hi t vs) as [? ?]; [apply elem_of_app; right; by left|]. rewrite decide_False; [done|]. tauto.
        * by destruct (decide _). }
  apply groups_join; [done|done|done|]. intros id _ _. apply Hl.
Qed.

(** ** C31 *)

(** Removing an entity within the rules takes it out of every group, and out of
    nothing else: the answer of a group query is as before without the entity,
    up to order. *)
Theorem C31_remove_keeps_groups_partial ops id ord k ma mb a b l : rules (ops ++ [RemoveEntity id ord]) ->
  (k, a, b) ∈ groups_of (seen ops) -> k <> KNon ->
  answers ops (QGroup k ma mb a b) l -> answer ops (RemoveEntity id ord) = Ret OUnit ->
  exists l', answers (ops ++ [RemoveEntity id ord]) (QGroup k ma mb a b) l' /\
    l' ≡ₚ filter (fun p => p.1 <> id) l.
Proof.
  intros L Hg Hk Hl Hr. pose proof L as [L1 _]%rules_snoc.
  destruct (group_query ops k ma mb a b L1 Hg) as (l0 & E & N & X); [done|].
  unfold answers, answer in Hl. rewrite E in Hl. injection Hl as ->.
  assert ((k, a, b) ∈ groups_of (seen (ops ++ [RemoveEntity id ord]))) as Hg'.
  { rewrite seen_snoc. unfold groups_of. rewrite foldl_app. simpl. done. }
  destruct (group_query _ k ma mb a b L Hg') as (l' & E' & N' & X'); [done|].
  exists l'. split; [unfold answers, answer; by rewrite E'|].
  apply NoDup_Permutation.
  - by eapply NoDup_fmap_1.
  - apply NoDup_filter. by eapply NoDup_fmap_1.
  - intros [i x]. rewrite X', elem_of_list_filter, X, seen_snoc, Hr. simpl. unfold in_group, both_vals.
    rewrite !value_snoc, left_snoc. simpl. destruct (decide (id = i)) as [->|Hne].
    + split; [|naive_solver]. intros [([? ?] & _) _]. done.
    + split; [|tauto]. intros [? ?]. split; [by intros <-|done].
Qed.

(** When are removals within the rules?  It is enough that no type owned by a
    group belongs to a group made later. *)
Theorem C31_good_order ops id ord : rules ops ->
  (forall i j g h t, i < j -> groups_of (seen ops) !! i = Some g -> groups_of (seen ops) !! j = Some h ->
     owns g t -> t <> h.1.2 /\ t <> h.2) ->
  id ∈ alive (seen ops) -> ord ≡ₚ elements (types_of (seen ops)) ->
  rules (ops ++ [RemoveEntity id ord]).
Proof.
  intros L Ho Hid Hord. apply rules_snoc. split; [done|]. destruct (reached ops L) as [H A].
  rewrite (ag_grp _ _ A) in Ho. apply (ag_alive _ _ A) in Hid. pose proof Hid as [Hal Hfr].
  split; [apply Hal|]. split; [intros Hla; apply Hfr; by eapply last_Some_elem_of|]. split.
  - intros i j g h t Hij Hg Hh _ _ Hown. specialize (Ho i j (gkey g) (gkey h) t Hij).
    rewrite !list_lookup_fmap, Hg, Hh in Ho. destruct (Ho eq_refl eq_refl) as [N1 N2]; [by apply owns_ag|].
    simpl in N1, N2. unfold ag_types. apply orb_false_iff. rewrite !Nat.eqb_neq. split; congruence.
  - rewrite Hord. apply NoDup_Permutation.
    + apply NoDup_elements.
    + apply NoDup_fst_map_to_list.
    + intros t. rewrite elem_of_elements, (ag_reg _ _ A). unfold registered. rewrite elem_of_list_fmap. split.
      * intros [m Hm]. exists (t, m). split; [done|]. by apply elem_of_map_to_list.
      * intros ([? m] & -> & Hm%elem_of_map_to_list). by exists m.
Qed.

(** ** C34 *)

(** A refused [make_group] changes nothing (this is all of C34 that holds). *)
Theorem C34_refused_unchanged_partial ops k a b : g_clash (groups_in (after ops)) (k, a, b) ->
  step (MakeGroup k a b) (after ops) = (Panic, after ops).
Proof. apply C27_refused_iff. Qed.

(** [make_group] of a type that is not registered panics after having added the
    group; from then on, as long as the type stays unregistered, no entity can
    be removed. *)
Lemma collect_stuck (w0 : world V) id gs : forall i, (exists g, g ∈ gs /\ (w_comps w0 !! (g_types g).1 = None \/ w_comps w0 !! (g_types g).2 = None)) ->
  forall l, collect_in_group w0 id gs i <> Ret l.
Proof.
  induction gs as [|g gs IH]; intros i (g0 & Hin & Hn) l; [by apply elem_of_nil in Hin|]. simpl.
  destruct (g_types g) as [x y] eqn:Et. apply elem_of_cons in Hin as [->|Hin].
  - rewrite Et in Hn. simpl in Hn. destruct Hn as [-> | Hn]; [done|].
    destruct (w_comps w0 !! x); [|done]. by rewrite Hn.
  - destruct (w_comps w0 !! x); [|done]. destruct (w_comps w0 !! y); [|done].
    destruct (g_in_group g _ _ id); try done.
    pose proof (IH (S i) (ex_intro _ g0 (conj Hin Hn))) as Hr. destruct (collect_in_group w0 id gs (S i)); try done.
    by destruct (Hr a0).
Qed.
Lemma remove_stuck (w0 : world V) id ord :
  (exists g, g ∈ w_groups w0 /\ (w_comps w0 !! (g_types g).1 = None \/ w_comps w0 !! (g_types g).2 = None)) ->
  forall r, (step (RemoveEntity id ord) w0).1 <> Ret r.
Proof.
  intros Hg r. cbn [step]. unfold fmapM, remove_entity. unfold bind at 1. rewrite bind_get.
  destruct (exist id w0) as [b0| | |] eqn:Ee; unfold bind at 1; simpl; try done.
  destruct b0; unfold bind at 1; simpl; [|done].
  pose proof (collect_stuck w0 id (w_groups w0) 0 Hg) as Hc. unfold bind at 1. unfold lift at 1.
  destruct (collect_in_group w0 id (w_groups w0) 0) as [l| | |]; simpl; try done. by destruct (Hc l).
Qed.
Theorem C34_poisoned ops k a b ops' : ~ g_clash (groups_in (after ops)) (k, a, b) ->
  a ∉ types_of (seen ops) \/ b ∉ types_of (seen ops) ->
  answer ops (MakeGroup k a b) = Panic /\
  groups_in (after (ops ++ [MakeGroup k a b])) = groups_in (after ops) ++ [(k, a, b)] /\
  let later := (ops ++ [MakeGroup k a b]) ++ ops' in
  (a ∉ types_of (seen later) \/ b ∉ types_of (seen later) ->
   forall id ord r, answer later (RemoveEntity id ord) <> Ret r).
Proof.
  intros C Hu. split; [|split; [by apply C27_refused_iff|]].
  - rewrite <- clash_iff in C. unfold answer. cbn [step]. unfold fmapM, make_group, bind at 1. rewrite bind_get.
    destruct (has_group (new_group k a b) (after ops)); [tauto|]. rewrite bind_assert_true by done.
    destruct (owner_conflict (new_group k a b) (after ops)); [tauto|]. rewrite bind_assert_true by done. rewrite bind_put.
    rewrite <- !(so_reg _ _ (sound_all ops)) in Hu. rewrite <- !eq_None_not_Some in Hu.
    unfold run_group_at. cbn [set_groups w_groups w_comps]. rewrite lookup_app_r, Nat.sub_diag by lia. cbn [lookup list_lookup].
    destruct k; cbn [new_group fd_a fd_b pd_a pd_b nd_a nd_b].
    + destruct (w_comps (after ops) !! a) eqn:Ea; [|done]. destruct (a =? b) eqn:Eab.
      { apply Nat.eqb_eq in Eab as <-. destruct Hu; congruence. }
      destruct Hu as [?|Hu]; [congruence|]. by rewrite Hu.
    + destruct (w_comps (after ops) !! a) eqn:Ea; [|done]. destruct (a =? b) eqn:Eab.
      { apply Nat.eqb_eq in Eab as <-. destruct Hu; congruence. }
      destruct Hu as [?|Hu]; [congruence|]. by rewrite Hu.
    + destruct (w_comps (after ops) !! a) eqn:Ea; [|done]. destruct Hu as [?|Hu]; [congruence|]. by rewrite Hu.
  - intros later Hu' id ord r. apply remove_stuck.
    assert (forall ops'', (k, a, b) ∈ groups_in (after ((ops ++ [MakeGroup k a b]) ++ ops''))) as Hin.
    { induction ops'' as [|o ops'' IH] using rev_ind.
      - rewrite app_nil_r. destruct (C27_refused_iff ops k a b) as [_ E]. rewrite (E C). set_solver.
      - rewrite app_assoc. destruct o; try (rewrite C27_only_make_group by done; exact IH).
        destruct (C27_refused_iff ((ops ++ [MakeGroup k a b]) ++ ops'') k0 a0 b0) as [C1 C2].
        assert (g_clash (groups_in (after ((ops ++ [MakeGroup k a b]) ++ ops''))) (k0, a0, b0) \/
                ~ g_clash (groups_in (after ((ops ++ [MakeGroup k a b]) ++ ops''))) (k0, a0, b0)) as [D|D].
        { rewrite <- clash_iff. destruct (has_group (new_group k0 a0 b0) _); [tauto|].
          destruct (owner_conflict (new_group k0 a0 b0) _); [tauto|]. right. intros [?|?]; done. }
        + rewrite after_snoc, (C1 D). exact IH.
        + rewrite (C2 D). set_solver. }
    specialize (Hin ops'). fold later in Hin. unfold groups_in in Hin. apply elem_of_list_fmap in Hin as (g & Eg & Hg).
    exists g. split; [done|]. rewrite <- !(so_reg _ _ (sound_all later)), <- !eq_None_not_Some in Hu'.
    destruct g; simpl in *; by injection Eg as -> -> ->.
Qed.
End groups.

(** ** Refutations, and cases *)

(** C30: within the rules a non-owning group yields another entity's component,
    or reads out of bounds. *)
Definition h30 : list (op nat) :=
  [Register 1; Register 2; CreateEntities 3; Attach 1 1 11; Attach 2 1 21; Attach 1 2 12; Attach 2 2 22;
   MakeGroup KNon 1 2; Detach 1 1; Attach 1 3 13].
Theorem C30_non_owning_refuted : rules h30 /\ (KNon, 1, 2) ∈ groups_of (seen h30) /\
  value_of (seen h30) 1 2 = Some 12 /\
  answer h30 (Query (QGroup KNon false false 1 2)) = Ret (OItems [(2, V2 (VLeaf 13) (VLeaf 22))]) /\
  rules (h30 ++ [Detach 1 3]) /\
  answer (h30 ++ [Detach 1 3]) (Query (QGroup KNon false false 1 2)) = UB.
Proof.
  split; [check_rules|]. split; [by_compute|]. split; [by_compute|]. split; [vm_compute; reflexivity|].
  split; [check_rules|]. vm_compute; reflexivity.
Qed.

(** C31: the same calls, the two groups made in the other order: one history is
    right, the other ends in undefined behaviour. *)
Definition h31 (first second : op nat) : list (op nat) :=
  [Register 1; Register 2; Register 3; CreateEntities 3;
   Attach 1 1 11; Attach 2 1 21; Attach 3 1 31; Attach 1 2 12; Attach 2 2 22; Attach 3 2 32]
  ++ [first; second] ++ [RemoveEntity 1 [1; 3; 2]].
Theorem C31_order_refuted :
  let full := MakeGroup KFull 1 2 in let part := MakeGroup KPart 3 1 in
  let q := QGroup KPart false false 3 1 in
  rules (h31 part full) /\
  answer (h31 part full) (Query q) = Ret (OItems [(2, V2 (VLeaf 32) (VLeaf 12))]) /\
  answer (h31 full part) (Query q) = UB /\
  Forall (fun ev => exists r, ev.2 = Ret r) (seen (h31 full part)).
Proof.
  split; [check_rules|]. split; [vm_compute; reflexivity|]. split; [vm_compute; reflexivity|].
  vm_compute. repeat (constructor; [eexists; reflexivity|]). constructor.
Qed.

(** C32: an entity that got its types by batch attach is not in the group. *)
Theorem C32_batch_refuted : exists ops : list (op nat), rules ops /\ (KFull, 1, 2) ∈ groups_of (seen ops) /\
  value_of (seen ops) 1 1 = Some 7 /\ value_of (seen ops) 2 1 = Some 8 /\
  answer ops (Query (QGroup KFull false false 1 2)) = Ret (OItems []).
Proof.
  exists [Register 1; Register 2; MakeGroup KFull 1 2; CreateEntities 1; BatchAttach 1 2 1 [7]; BatchAttach 1 2 2 [8]].
  split; [check_rules|]. split; [by_compute|]. split; [by_compute|]. split; [by_compute|]. vm_compute; reflexivity.
Qed.
(** The same attaches one by one put it in. *)
Example C32_case_single :
  answer [Register 1; Register 2; MakeGroup KFull 1 2; CreateEntities 1; Attach 1 1 7; Attach 2 1 8]
    (Query (QGroup KFull false false 1 2)) = Ret (OItems [(1, V2 (VLeaf 7) (VLeaf 8))]).
Proof. vm_compute; reflexivity. Qed.

(** And a history within the hypotheses of C32_batch_before_partial. *)
Example C32_case :
  let ops := [Register 1; Register 2; CreateEntities 3; BatchAttach 1 4 1 [11; 12; 13]; BatchAttach 1 3 2 [21; 22]] in
  let ops' := [CreateEntity; Attach 1 4 14; Attach 2 4 24; Detach 2 1] in
  rules ((ops ++ [MakeGroup KFull 1 2]) ++ ops') /\ answer ops (MakeGroup KFull 1 2) = Ret OUnit /\
  (forall lo hi t (vs : list nat), BatchAttach lo hi t vs ∈ ops' -> t <> 1 /\ t <> 2) /\
  answer ((ops ++ [MakeGroup KFull 1 2]) ++ ops') (Query (QGroup KFull false false 1 2)) =
    Ret (OItems [(4, V2 (VLeaf 14) (VLeaf 24)); (2, V2 (VLeaf 12) (VLeaf 22))]).
Proof.
  split; [check_rules|]. split; [vm_compute; reflexivity|]. split; [|vm_compute; reflexivity].
  intros lo hi t vs H. repeat (apply elem_of_cons in H as [H|H]; [discriminate|]). by apply elem_of_nil in H.
Qed.

(** C34: a failed [make_group] changes the world: an entity that could be
    removed cannot be removed any more; and of one type twice it never
    returns, and blocks later attaches. *)
Theorem C34_failed_refuted : exists (ops : list (op nat)) id,
  rules (ops ++ [RemoveEntity id [1]]) /\
  answer ops (RemoveEntity id [1]) = Ret OUnit /\
  answer ops (MakeGroup KFull 1 9) = Panic /\
  answer (ops ++ [MakeGroup KFull 1 9]) (RemoveEntity id [1]) = Panic /\
  answer ops (Attach 1 id 5) = Ret OUnit /\
  answer ops (MakeGroup KFull 1 1) = Block /\
  answer (ops ++ [MakeGroup KFull 1 1]) (Attach 1 id 5) = Block.
Proof.
  exists [Register 1; CreateEntity; CreateEntity], 1. split; [check_rules|].
  repeat (split; [vm_compute; reflexivity|]). vm_compute; reflexivity.
Qed.

(** cases *)
Example C27_case : rules sample4 /\ groups_of (seen sample4) = [(KNon, 2, 4); (KPart, 3, 2); (KFull, 1, 4)] /\
  answer sample4 (MakeGroup KPart 4 2) = Panic /\ answer sample4 (MakeGroup KPart 2 3) = Ret OUnit.
Proof. split; [exact sample4_rules|]. repeat (split; [vm_compute; reflexivity|]). vm_compute; reflexivity. Qed.
Example C28_case : rules sample4 /\ (KFull, 1, 4) ∈ groups_of (seen sample4) /\
  answer sample4 (Query (QGroup KFull true false 1 4)) =
    Ret (OItems [(3, V2 (VLeaf 13) (VLeaf 43)); (1, V2 (VLeaf 111) (VLeaf 41))]).
Proof. split; [exact sample4_rules|]. split; [by_compute|]. vm_compute; reflexivity. Qed.
Example C29_case : rules sample4 /\ (KPart, 3, 2) ∈ groups_of (seen sample4) /\
  answer sample4 (Query (QGroup KPart true false 3 2)) = Ret (OItems [(3, V2 (VLeaf 33) (VLeaf 23))]).
Proof. split; [exact sample4_rules|]. split; [by_compute|]. vm_compute; reflexivity. Qed.
(** a full-owning and a later partial-owning group sharing a type, and a
    non-owning group that stays undisturbed *)
Definition sample5 : list (op nat) :=
  [ Register 1; Register 2; Register 3; Register 4; Register 5; CreateEntities 4;
    Attach 4 1 41; Attach 5 1 51; MakeGroup KNon 4 5; MakeGroup KFull 1 2; MakeGroup KPart 3 1;
    Attach 1 1 11; Attach 2 1 21; Attach 1 2 12; Attach 3 2 32; Attach 4 3 43; Attach 5 3 53;
    Attach 2 2 22; Detach 2 2; WriteComp 4 3 430; RemoveEntity 4 (elements (list_to_set [1;2;3;4;5] : gset nat)) ].
Example sample5_rules : rules sample5.
Proof. check_rules. Qed.
Example C30_case : rules sample5 /\ (KNon, 4, 5) ∈ groups_of (seen sample5) /\ undisturbed (seen sample5) 4 5 /\
  answer sample5 (Query (QGroup KNon true true 4 5)) =
    Ret (OItems [(1, V2 (VLeaf 41) (VLeaf 51)); (3, V2 (VLeaf 430) (VLeaf 53))]).
Proof.
  split; [exact sample5_rules|]. split; [by_compute|]. split; [apply undisturbedb_ok; vm_compute; reflexivity|].
  vm_compute; reflexivity.
Qed.
Example C31_case : rules (sample5 ++ [RemoveEntity 1 (elements (list_to_set [1;2;3;4;5] : gset nat))]) /\
  answer sample5 (RemoveEntity 1 (elements (list_to_set [1;2;3;4;5] : gset nat))) = Ret OUnit /\
  answer sample5 (Query (QGroup KFull false false 1 2)) = Ret (OItems [(1, V2 (VLeaf 11) (VLeaf 21))]) /\
  answer sample5 (Query (QGroup KPart false false 3 1)) = Ret (OItems [(2, V2 (VLeaf 32) (VLeaf 12))]).
Proof.
  split; [check_rules|]. split; [vm_compute; reflexivity|]. split; vm_compute; reflexivity.
Qed.

(** Along legal histories the history functions agree with the abstract world. *)
From stdpp Require Import prelude list gmap.
From Verif Require Import Base Api ModelSparse ModelEntity ModelGroup ModelWorld ModelQuery ModelStep
  Spec History ProofSparse ProofEntity ProofGroup ProofWorld ProofOps ProofOps2 ProofRemove
  ProofQuery ProofQuery2 ProofQuery3 ProofQueryMut ProofMain.

Section hist.
Context {V : Type}.
Notation world := (world V).
Implicit Types (w : world) (aw : aworld V) (h : history V).

Lemma trace_app ops ops' w : trace (ops ++ ops') w = trace ops w ++ trace ops' (exec ops w).
Proof. revert w. induction ops as [|o ops IH]; intros w; [done|]. simpl. by rewrite IH. Qed.
Lemma trace_snoc ops o w : trace (ops ++ [o]) w = trace ops w ++ [(o, (step o (exec ops w)).1)].
Proof. by rewrite trace_app. Qed.

Definition gkey (g : agroup) : gkind * nat * nat := (ag_kind g, ag_a g, ag_b g).
Record agree h aw : Prop := {
  ag_val : forall t id, value_of h t id = comp aw t id;
  ag_alive : forall id, id ∈ alive h <-> live aw id;
  ag_wait : waiting h = a_free aw;
  ag_handed : forall id, id ∈ handed h <-> allocated aw id;
  ag_reg : forall t, t ∈ types_of h <-> registered aw t;
  ag_grp : groups_of h = gkey <$> a_groups aw;
  ag_resv : forall r, res_of h r = a_res aw !! r;
  ag_slot : forall t, slots_of h t = a_slots aw t
}.

Definition afree_ok aw : Prop := NoDup (a_free aw) /\ forall x, x ∈ a_free aw -> allocated aw x.
Lemma R_free w aw : R w aw -> afree_ok aw.
Proof.
  intros H. pose proof (R_em _ _ H) as E. split.
  - pose proof (er_nodup _ _ _ E) as N. by apply NoDup_app in N as (_ & _ & N).
  - intros x Hx. apply (er_elem _ _ _ x E). by right.
Qed.

Lemma agree_init : agree [] a_init.
Proof.
  split.
  - intros t id. unfold comp. simpl. by rewrite lookup_empty.
  - intros id. unfold alive, live, allocated. simpl. rewrite elem_of_empty. lia.
  - done.
  - intros id. unfold handed, allocated. simpl. rewrite elem_of_empty. lia.
  - intros t. unfold types_of, registered. simpl. rewrite lookup_empty, elem_of_empty. split; [done|by intros [? ?]].
  - done.
  - intros r. unfold res_of. simpl. by rewrite lookup_empty.
  - done.
Qed.

Lemma comp_alter aw (f : gmap nat V -> gmap nat V) t t' id sl gs :
  comp (AW (a_next aw) (a_free aw) (alter f t (a_comps aw)) sl gs (a_res aw)) t' id =
  if decide (t = t') then (f <$> a_comps aw !! t) ≫= (fun m => m !! id) else comp aw t' id.
Proof.
  unfold comp. simpl. case_decide as C.
  - subst t'. by rewrite lookup_alter.
  - by rewrite lookup_alter_ne.
Qed.
Lemma comp_put aw t t' id id' v sl gs : registered aw t ->
  comp (AW (a_next aw) (a_free aw) (alter (<[id := v]>) t (a_comps aw)) sl gs (a_res aw)) t' id' =
  if decide (t = t' /\ id = id') then Some v else comp aw t' id'.
Proof.
  intros [m Hm]. rewrite comp_alter. case_decide as C.
  - subst t'. rewrite Hm. simpl. destruct (decide (id = id')) as [->|Hne].
    + rewrite lookup_insert, decide_True; done.
    + rewrite lookup_insert_ne, decide_False by (tauto || done). unfold comp. by rewrite Hm.
  - rewrite decide_False; [done|tauto].
Qed.

Lemma a_exist_cases aw id : a_exist aw id = Ret true \/ a_exist aw id = Ret false \/ a_exist aw id = Panic.
Proof. unfold a_exist. case_decide; [tauto|]. case_bool_decide; tauto. Qed.

(** group members have both components *)
Lemma R_mem w aw g id : R w aw -> g ∈ a_groups aw -> id ∈ ag_mem g -> has aw (ag_a g) id /\ has aw (ag_b g) id.
Proof.
  intros H Hg Hid. apply elem_of_list_lookup in Hg as [i Hi].
  destruct (Forall2_lookup_r _ _ _ _ _ (R_gr _ _ H) Hi) as (g0 & _ & Hok).
  destruct (gok_mem _ _ _ _ _ id (R_st _ _ H) Hok Hid) as (ma & mb & Ha & Hb & Ma & Mb).
  unfold has, comp. by rewrite Ha, Hb.
Qed.
Lemma find_agroup_Some aw k a b g : find_agroup aw k a b = Some g ->
  g ∈ a_groups aw /\ ag_kind g = k /\ ag_a g = a /\ ag_b g = b.
Proof.
  intros E. apply List.find_some in E as [E1 E2]. split; [by apply elem_of_list_In|]. by apply ag_same_inv.
Qed.
Lemma has_pair aw a b id : has aw a id -> has aw b id -> is_Some (pair_get aw a b id).
Proof. unfold has, pair_get. intros [x ->] [y ->]. eauto. Qed.
Lemma visits_get w aw q id : R w aw -> q_visits aw q id = true -> is_Some (q_get aw q id).
Proof.
  intros H. induction q; simpl; rewrite ?andb_bd; intros Hv.
  - apply bool_decide_eq_true in Hv as [v Hv]. unfold has in *. rewrite Hv. simpl. eauto.
  - destruct Hv as [Ha [y ->]]. destruct (IHq1 Ha) as [x ->]. eauto.
  - destruct Hv as [[Ha [y ->]] [z ->]]. destruct (IHq1 Ha) as [x ->]. eauto.
  - destruct Hv as [[[Ha [y ->]] [z ->]] [u ->]]. destruct (IHq1 Ha) as [x ->]. eauto.
  - destruct Hv as [[[[Ha [y ->]] [z ->]] [u ->]] [v ->]]. destruct (IHq1 Ha) as [x ->]. eauto.
  - destruct Hv as [Hb ->]. by apply IHq2.
  - destruct Hv as [Hb ->]. by apply IHq1.
  - destruct (find_agroup aw k a b) as [g|] eqn:E; [|done].
    apply bool_decide_eq_true in Hv. destruct (find_agroup_Some _ _ _ _ _ E) as (Hg & <- & <- & <-).
    destruct (R_mem w aw g id H Hg Hv) as [A B]. pose proof (has_pair _ _ _ _ A B) as P.
    destruct (ag_kind g); [done|done|]. rewrite E. by rewrite decide_True.
Qed.

(** *** components *)
Lemma val_step w aw o r : R w aw -> legal aw o -> aout aw o r -> forall t id,
  comp (anext aw o) t id = comp_event t id (comp aw t id) (o, r).
Proof.
  intros H L O t0 id0. destruct o; cbn [anext aout legal] in *; try (subst r; done).
  - subst r. case_decide as C; [done|]. unfold comp. simpl. destruct (decide (t = t0)) as [->|Hne].
    + rewrite lookup_insert. simpl. unfold registered in C. rewrite lookup_empty.
      destruct (a_comps aw !! t0) eqn:E; [|done]. destruct C. eauto.
    + by rewrite lookup_insert_ne.
  - subst r. by destruct (a_free aw).
  - subst r. case_decide as C; [|done]. unfold comp. simpl. rewrite lookup_fmap.
    case_decide as D; destruct (a_comps aw !! t0) as [m|]; simpl; try done.
    + subst id0. apply lookup_delete.
    + by rewrite lookup_delete_ne.
  - subst r. destruct (a_exist_cases aw id) as [E|[E|E]]; rewrite E; try done.
    case_decide as C; [|done]. unfold a_attach, a_put, a_set_groups, a_set_slots, a_set_comps. simpl.
    by rewrite comp_put.
  - subst r. destruct (a_exist_cases aw id) as [E|[E|E]]; rewrite E; try done.
    destruct (decide (registered aw t)) as [C|C].
    + destruct (comp aw t id) as [v|] eqn:Ev.
      * destruct (decide (has aw t id)) as [Hh|Hh]; [|destruct Hh; unfold has; rewrite Ev; eauto].
        unfold a_detach, a_set_groups, a_set_comps. simpl. rewrite comp_alter. destruct C as [m Hm]. rewrite Hm. simpl.
        case_decide as D.
        -- subst t0. destruct (decide (id = id0)) as [->|Hne].
           ++ rewrite lookup_delete, decide_True; done.
           ++ rewrite lookup_delete_ne, decide_False by (tauto || done). unfold comp. by rewrite Hm.
        -- rewrite decide_False; [done|tauto].
      * destruct (decide (has aw t id)) as [[x Hh]|Hh]; [congruence|].
        case_decide; [done|]. simpl. case_decide as D; [|done]. destruct D as [-> ->]. done.
    + destruct (decide (has aw t id)) as [Hh|Hh]; [by apply has_registered' in Hh|done].
  - subst r. destruct L as [L0 L]. destruct (decide (registered aw t /\ length vs = hi - lo)) as [[[m Hm] Hl]|C]; [|done]. simpl.
    assert (comp (a_batch lo hi t vs aw) t0 id0 =
      comp (AW (a_next aw) (a_free aw) (alter (fun m => list_to_map (zip (seq lo (hi - lo)) vs) ∪ m) t (a_comps aw))
        (a_slots aw) (a_groups aw) (a_res aw)) t0 id0) as ->.
    { unfold a_batch. by destruct (lo <? hi). }
    rewrite comp_alter. case_decide as D.
    + subst t0. rewrite Hm. simpl. case_decide as D.
      * destruct D as [_ D]. destruct (lookup_lt_is_Some_2 vs (id0 - lo)) as [v Hv]; [lia|]. rewrite Hv.
        apply lookup_union_Some_l. apply elem_of_list_to_map_1.
        -- rewrite fst_zip; [apply NoDup_seq|rewrite seq_length; lia].
        -- apply elem_of_list_lookup. exists (id0 - lo). rewrite lookup_zip_with.
           rewrite lookup_seq_lt by lia. simpl. rewrite Hv. simpl. do 2 f_equal. lia.
      * rewrite lookup_union_r. { unfold comp. by rewrite Hm. }
        apply not_elem_of_list_to_map_1. rewrite fst_zip by (rewrite seq_length; lia).
        rewrite elem_of_seq. intros ?. apply D. split; [done|lia].
    + rewrite decide_False; [done|tauto].
  - subst r. simpl. case_decide as C.
    + rewrite bool_decide_eq_true_2 by done. unfold a_put, a_set_comps. rewrite comp_put; [done|]. by eapply has_registered'.
    + rewrite bool_decide_eq_false_2 by done. done.
  - destruct O as (l & -> & _). done.
  - subst r. simpl. case_decide as C.
    + rewrite bool_decide_eq_true_2 by done. unfold a_put, a_set_comps. rewrite comp_put; [done|]. by eapply has_registered'.
    + rewrite bool_decide_eq_false_2 by done. done.
  - done.
  - subst r. by destruct (group_refused aw k a b).
  - destruct (a_open aw q); [destruct O as (l & -> & _)|subst r|done|subst r]; done.
  - destruct (a_open aw q) as [[]| | |] eqn:Eo; [destruct O as (l & -> & ND & Hl)|by subst r|done|by subst r].
    pose proof (upd_comp (fun t id => q_visits aw q id && bool_decide (t ∈ q_muts q)) f aw t0 id0) as U.
    unfold a_query_mut. unfold upd_comps in U. rewrite U. simpl. clear U.
    destruct (comp aw t0 id0) as [v|] eqn:Ev; simpl; [|by case_decide].
    case_decide as D.
    + destruct D as [D1 D2]. apply elem_of_list_fmap in D1 as ([id' x] & -> & D1). apply Hl in D1 as [D1 _].
      simpl. rewrite D1. by rewrite bool_decide_eq_true_2.
    + destruct (q_visits aw q id0) eqn:Evis; [|done]. simpl. case_bool_decide as B; [|done].
      destruct D. split; [|done].
      assert (is_Some (q_get aw q id0)) as [x Hx].
      { by eapply visits_get. }
      apply elem_of_list_fmap. exists (id0, x). split; [done|]. by apply Hl.
  - subst r. by case_decide.
Qed.

(** *** entities *)
Lemma alive_snoc h ev : alive (h ++ [ev]) = alive_event (alive h) ev.
Proof. unfold alive. by rewrite foldl_app. Qed.
Lemma waiting_snoc h ev : waiting (h ++ [ev]) = waiting_event (waiting h) ev.
Proof. unfold waiting. by rewrite foldl_app. Qed.
Lemma handed_snoc h ev id : id ∈ handed (h ++ [ev]) <-> id ∈ handed h \/ id ∈ handed_ev ev.
Proof.
  unfold handed. rewrite bind_app. rewrite list_to_set_app_L, elem_of_union, !elem_of_list_to_set.
  simpl. by rewrite app_nil_r.
Qed.
Lemma filter_nil_id (l : list nat) : filter (fun i => i ∉ ([] : list nat)) l = l.
Proof. induction l as [|x l IH]; [done|]. rewrite filter_cons_True by set_solver. by rewrite IH. Qed.

(** calls that do not touch the entity manager *)
Definition ent_op (o : op V) : bool :=
  match o with CreateEntity | CreateEntities _ | RemoveEntity _ _ => true | _ => false end.
Lemma ent_frame aw o : ent_op o = false ->
  a_next (anext aw o) = a_next aw /\ a_free (anext aw o) = a_free aw.
Proof.
  destruct o; try done; intros _; cbn [anext]; try (by repeat case_match).
  - case_decide; [|done]. unfold a_batch. by destruct (lo <? hi).
Qed.
Lemma ent_ev o r s l : ent_op o = false -> handed_ev (o, r) = [] /\ alive_event s (o, r) = s /\ waiting_event l (o, r) = l.
Proof.
  destruct o; try done; intros _; simpl; (split; [done|]); (split; [set_solver|apply filter_nil_id]).
Qed.

Lemma registered_alter (f : gmap nat V -> gmap nat V) (c : gmap nat (gmap nat V)) t u :
  is_Some (alter f t c !! u) <-> is_Some (c !! u).
Proof. apply lookup_alter_is_Some. Qed.
Lemma upd_registered P f (c : gmap nat (gmap nat V)) u : is_Some (upd_comps P f c !! u) <-> is_Some (c !! u).
Proof. rewrite upd_lookup. by rewrite fmap_is_Some. Qed.
Lemma reg_frame aw o u : (forall t, o <> Register t) -> registered aw u <-> registered (anext aw o) u.
Proof.
  intros Hne. unfold registered.
  destruct o; cbn [anext]; try done; try (by destruct (Hne t)).
  - by destruct (a_free aw).
  - case_decide; [|done]. simpl. by rewrite lookup_fmap, fmap_is_Some.
  - destruct (a_exist_cases aw id) as [E|[E|E]]; rewrite E; try done. case_decide; [|done]. simpl. by rewrite lookup_alter_is_Some.
  - destruct (a_exist_cases aw id) as [E|[E|E]]; rewrite E; try done. case_decide; [|done]. simpl. by rewrite lookup_alter_is_Some.
  - case_decide; [|done]. unfold a_batch. destruct (lo <? hi); simpl; by rewrite lookup_alter_is_Some.
  - case_decide; [|done]. simpl. by rewrite lookup_alter_is_Some.
  - case_decide; [|done]. simpl. by rewrite lookup_alter_is_Some.
  - by destruct (group_refused aw k a b).
  - destruct (a_open aw q); [|done..]. unfold a_query_mut. simpl.
    symmetry. apply (upd_registered (fun t id => q_visits aw q id && bool_decide (t ∈ q_muts q)) f).
  - by case_decide.
Qed.
Lemma grp_frame aw o r : aout aw o r -> group_event (gkey <$> a_groups aw) (o, r) = gkey <$> a_groups (anext aw o).
Proof.
  intros O. destruct o; cbn [anext aout group_event] in *; try done.
  - by case_decide.
  - by destruct (a_free aw).
  - case_decide; [|done]. simpl. by rewrite <- list_fmap_compose.
  - destruct (a_exist_cases aw id) as [E|[E|E]]; rewrite E in *; subst r; try done. destruct (decide _); [|done]. simpl. by rewrite <- list_fmap_compose.
  - destruct (a_exist_cases aw id) as [E|[E|E]]; rewrite E in *; subst r; try done. destruct (decide _); [|done]. simpl. by rewrite <- list_fmap_compose.
  - case_decide; [|done]. unfold a_batch. by destruct (lo <? hi).
  - by case_decide.
  - by case_decide.
  - subst r. destruct (group_refused aw k a b); [done|]. simpl. rewrite fmap_app. f_equal.
    by rewrite <- list_fmap_compose.
  - by destruct (a_open aw q).
  - by case_decide.
Qed.

Lemma agree_step w h aw o : R w aw -> agree h aw -> legal aw o ->
  agree (h ++ [(o, (step o w).1)]) (anext aw o).
Proof.
  intros H A L. pose proof (step_ok w aw o H L) as [O H']. set (r := (step o w).1) in *.
  pose proof (R_free _ _ H) as [Fn Fa].
  assert (forall t id, value_of (h ++ [(o, r)]) t id = comp (anext aw o) t id) as Hval.
  { intros t id. unfold value_of. rewrite foldl_app. simpl. change (foldl (comp_event t id) None h) with (value_of h t id).
    rewrite (ag_val _ _ A). symmetry. by eapply val_step. }
  assert ((forall id, id ∈ alive (h ++ [(o, r)]) <-> live (anext aw o) id) /\
          waiting (h ++ [(o, r)]) = a_free (anext aw o) /\
          (forall id, id ∈ handed (h ++ [(o, r)]) <-> allocated (anext aw o) id)) as (Hal & Hw & Hh).
  { rewrite alive_snoc, waiting_snoc. setoid_rewrite handed_snoc.
    destruct (ent_op o) eqn:Eo.
    2:{ destruct (ent_frame aw o Eo) as [E1 E2]. destruct (ent_ev o r (alive h) (waiting h) Eo) as (V1 & V2 & V3).
        rewrite V1, V2, V3. unfold live, allocated. rewrite E1, E2. split; [apply A|]. split; [apply A|].
        intros id. rewrite elem_of_nil. rewrite (ag_handed _ _ A). unfold allocated. tauto. }
    destruct o; try done; cbn [aout] in O; clearbody r; subst r.
    - (* CreateEntity *)
      simpl. destruct (a_free aw) as [|f fs] eqn:Ef.
      + split; [|split].
        * intros id. rewrite elem_of_union, (ag_alive _ _ A). unfold live, allocated. simpl. rewrite Ef.
          rewrite elem_of_union, elem_of_singleton, !elem_of_nil. setoid_rewrite elem_of_empty. lia.
        * rewrite (ag_wait _ _ A), Ef. done.
        * intros id. rewrite (ag_handed _ _ A). unfold allocated. simpl. rewrite elem_of_list_singleton. lia.
      + apply NoDup_cons in Fn as [Fn1 Fn2]. split; [|split].
        * intros id. rewrite elem_of_union, (ag_alive _ _ A). unfold live, allocated. simpl. rewrite Ef.
          rewrite elem_of_union, elem_of_singleton. setoid_rewrite elem_of_empty. rewrite elem_of_cons.
          assert (allocated aw f) as Hf by (apply Fa; left). unfold allocated in Hf.
          destruct (decide (id = f)) as [->|Hne]; [tauto|]. tauto.
        * rewrite (ag_wait _ _ A), Ef. rewrite filter_cons_False by set_solver.
          clear -Fn1. induction fs as [|x fs IH]; [done|]. rewrite filter_cons_True by set_solver. rewrite IH; set_solver.
        * intros id. rewrite (ag_handed _ _ A). assert (allocated aw f) as Hf by (apply Fa; left).
          unfold allocated in *. simpl. rewrite elem_of_list_singleton. split; [|tauto]. intros [?| ->]; done.
    - (* CreateEntities *)
      cbn [handed_ev alive_event waiting_event anext]. replace (S (a_next aw) + n - S (a_next aw)) with n by lia.
      split; [|split].
      + intros id. rewrite elem_of_union, (ag_alive _ _ A), elem_of_list_to_set, elem_of_seq. unfold live, allocated. simpl.
        split; [|intros [? ?]; destruct (decide (id <= a_next aw)); [left; split; [lia|done]|right; lia]].
        intros [[? ?]|?]; [split; [lia|done]|]. split; [lia|]. intros Hin. apply Fa in Hin. unfold allocated in Hin. lia.
      + cbn [a_free]. rewrite (ag_wait _ _ A). clear -Fa. induction (a_free aw) as [|x fs IH]; [done|].
        rewrite filter_cons_True.
        * f_equal. apply IH. intros y Hy. apply Fa. by right.
        * rewrite elem_of_seq. assert (allocated aw x) as Hx by (apply Fa; left). unfold allocated in Hx. lia.
      + intros id. rewrite (ag_handed _ _ A), elem_of_seq. unfold allocated. simpl. lia.
    - (* RemoveEntity *)
      cbn [handed_ev alive_event waiting_event anext]. case_decide as C; simpl.
      + split; [|split].
        * intros i. rewrite elem_of_difference, (ag_alive _ _ A), elem_of_singleton. unfold live, allocated. simpl.
          rewrite elem_of_cons. tauto.
        * by rewrite (ag_wait _ _ A).
        * intros i. rewrite (ag_handed _ _ A), elem_of_nil. unfold allocated. simpl. tauto.
      + split; [|split].
        * intros i. rewrite elem_of_union, (ag_alive _ _ A). setoid_rewrite elem_of_empty. tauto.
        * rewrite (ag_wait _ _ A). apply filter_nil_id.
        * intros i. rewrite (ag_handed _ _ A), elem_of_nil. tauto. }
  split; try done.
  - (* registered *)
    intros t0. unfold types_of. rewrite foldl_app. simpl. change (foldl reg_event ∅ h) with (types_of h).
    destruct o; cbn [reg_event aout] in *; clearbody r; try (subst r);
      try (rewrite (ag_reg _ _ A); apply reg_frame; done).
    cbn [anext]. destruct (decide (registered aw t)) as [C|C]; unfold registered; simpl.
    + apply (ag_reg _ _ A).
    + rewrite elem_of_union, elem_of_singleton, (ag_reg _ _ A). unfold registered.
      destruct (decide (t = t0)) as [->|Hne].
      * rewrite lookup_insert. split; [eauto|tauto].
      * rewrite lookup_insert_ne by done. split; [intros [?|?]; [done|done]|tauto].
  - (* groups *)
    unfold groups_of. rewrite foldl_app. simpl. change (foldl group_event [] h) with (groups_of h).
    rewrite <- (grp_frame aw o r) by done. by rewrite (ag_grp _ _ A).
  - (* resources *)
    intros r0. unfold res_of. rewrite foldl_app. simpl. change (foldl (res_event r0) None h) with (res_of h r0).
    rewrite (ag_resv _ _ A). clearbody r. clear -O. rename r into rr.
    destruct o; cbn [anext aout] in *; try (by repeat case_match).
    + unfold a_batch. by repeat case_match.
    + subst rr. simpl. case_decide as D; [subst; by rewrite lookup_insert|by rewrite lookup_insert_ne].
    + subst rr. simpl. destruct (decide (is_Some (a_res aw !! r))) as [C|C].
      * rewrite bool_decide_eq_true_2 by done. simpl. case_decide as D; [subst; by rewrite lookup_insert|by rewrite lookup_insert_ne].
      * by rewrite bool_decide_eq_false_2.
  - (* slots *)
    intros t0. unfold slots_of. rewrite foldl_app. simpl. change (foldl (slot_event t0) 0 h) with (slots_of h t0).
    rewrite (ag_slot _ _ A). clearbody r. clear -O. rename r into rr.
    destruct o; cbn [anext aout slot_event] in *; try (by repeat case_match).
    + subst rr. destruct (a_exist_cases aw id) as [E|[E|E]]; rewrite E; try done.
      case_decide; [|done]. simpl. by repeat case_decide.
    + subst rr. destruct (decide (registered aw t /\ length vs = hi - lo)) as [C|C]; [|done]. unfold a_batch.
      destruct (lo <? hi) eqn:Elt; simpl.
      * apply Nat.ltb_lt in Elt. destruct (decide (t0 = t)) as [->|Hne].
        -- by rewrite decide_True.
        -- rewrite decide_False; [done|]. intros [? _]. congruence.
      * apply Nat.ltb_ge in Elt. case_decide; [lia|done].
Qed.
Lemma agree_exec_from ops : forall w h aw, R w aw -> agree h aw -> legal_all ops aw ->
  agree (h ++ trace ops w) (aexec ops aw).
Proof.
  induction ops as [|o ops IH]; intros w h aw H A L; simpl.
  - by rewrite app_nil_r.
  - destruct L as [L1 L2]. rewrite cons_middle, app_assoc. apply IH; [|by apply agree_step|done].
    by apply step_ok.
Qed.
Theorem agree_exec ops : legal_all ops a_init -> agree (trace ops w_new) (aexec ops a_init).
Proof. intros L. apply (agree_exec_from ops w_new [] a_init); [apply R_new|apply agree_init|done]. Qed.
End hist.

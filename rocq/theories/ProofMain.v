(** Every legal call behaves as specified; so does every legal history. *)
From stdpp Require Import prelude list gmap.
From Verif Require Import Base Api ModelSparse ModelEntity ModelGroup ModelWorld ModelQuery ModelStep
  Spec ProofSparse ProofEntity ProofGroup ProofWorld ProofOps ProofOps2 ProofRemove
  ProofQuery ProofQuery2 ProofQuery3 ProofQueryMut.

Section main.
Context {V : Type}.
Notation world := (world V).
Implicit Types (w : world) (aw : aworld V).

Lemma fmapM_eq {A B} (f : A -> B) (m : M world A) w r w' : m w = (r, w') ->
  fmapM f m w = (match r with Ret a => Ret (f a) | Panic => Panic | UB => UB | Block => Block end, w').
Proof. intros E. unfold fmapM, bind. rewrite E. by destruct r. Qed.

Lemma batch_panic_spec w aw lo hi t vs : R w aw -> ~ (registered aw t /\ length vs = hi - lo) ->
  entities_attach lo hi t vs w = (Panic, w).
Proof.
  intros H Hn. unfold entities_attach. destruct (length vs =? hi - lo) eqn:E; [|by rewrite bind_assert_false].
  rewrite bind_assert_true by done. apply Nat.eqb_eq in E. unfold storage_mut.
  destruct (w_comps w !! t) as [st|] eqn:Et; [|done]. exfalso. apply Hn. split; [|done].
  unfold registered. eapply srel_is_Some; [apply H|]. eauto.
Qed.

Lemma unreg_attach w aw t id v : R w aw -> ~ registered aw t -> entity_attach t id v w = (Panic, w).
Proof.
  intros H Hn. unfold entity_attach. rewrite bind_get. rewrite bind_assert_false; [done|].
  rewrite (has_registered_spec w aw t (R_st _ _ H)). by apply bool_decide_false.
Qed.
Lemma unreg_detach w aw t id : R w aw -> ~ registered aw t -> entity_detach t id w = (Panic, w).
Proof.
  intros H Hn. unfold entity_detach. rewrite bind_get. rewrite bind_assert_false; [done|].
  rewrite (has_registered_spec w aw t (R_st _ _ H)). by apply bool_decide_false.
Qed.
Lemma has_registered' aw t id : has aw t id -> registered aw t.
Proof. unfold has, comp, registered. destruct (a_comps aw !! t); [by eauto|by intros [? ?]]. Qed.

Theorem step_ok w aw o : R w aw -> legal aw o ->
  aout aw o (step o w).1 /\ R (step o w).2 (anext aw o).
Proof.
  intros H L. destruct o; simpl in L; cbn [step aout].
  - (* Register *)
    destruct (register_spec w aw t H) as [E H']. rewrite (fmapM_eq _ _ _ _ _ (surjective_pairing _)). simpl.
    split; [|exact H']. rewrite E. by case_decide.
  - rewrite bind_get. simpl. rewrite (has_registered_spec w aw t (R_st _ _ H)). done.
  - destruct (create_entity_spec w aw H) as (w' & E & H'). rewrite (fmapM_eq _ _ _ _ _ E). done.
  - destruct (create_entities_spec w aw n H) as (w' & E & H'). rewrite (fmapM_eq _ _ _ _ _ E). done.
  - destruct L as (Hid & Hl & Hap & Hord). simpl. case_decide as C.
    + destruct (remove_spec w aw id ord H C Hap Hord) as (w' & E & H'). rewrite (fmapM_eq _ _ _ _ _ E). done.
    + rewrite (fmapM_eq _ _ _ _ _ (remove_dead_spec w aw id ord H Hid C Hl)). done.
  - rewrite bind_get. rewrite (exist_spec w aw id H L). unfold fmapM, bind, lift. simpl.
    unfold a_exist. case_decide; done.
  - (* Attach *)
    unfold attach_component. cbn [anext].
    assert (forall o, (let! w0 := get in let! b := lift (exist id w0) in assert b >>! entity_attach t id v) w = o ->
      o = match a_exist aw id with Ret true => entity_attach t id v w | _ => (Panic, w) end) as X.
    { intros o <-. rewrite bind_get, (exist_spec w aw id H L). unfold a_exist. case_decide; [done|].
      rewrite bind_lift. by case_bool_decide. }
    rewrite (fmapM_eq _ _ _ _ _ (surjective_pairing _)). rewrite (X _ eq_refl).
    assert (a_exist aw id = Ret true \/ a_exist aw id = Ret false \/ a_exist aw id = Panic) as [E|[E|E]].
    { unfold a_exist. case_decide; [tauto|]. case_bool_decide; tauto. }
    all: rewrite E; try done.
    case_decide as C.
    + destruct (attach_spec w aw t id v H C) as (w' & Ea & H'). rewrite Ea. done.
    + rewrite (unreg_attach w aw t id v H C). done.
  - (* Detach *)
    unfold detach_component. cbn [anext].
    assert (forall o, (let! w0 := get in let! b := lift (exist id w0) in assert b >>! entity_detach t id) w = o ->
      o = match a_exist aw id with Ret true => entity_detach t id w | _ => (Panic, w) end) as X.
    { intros o <-. rewrite bind_get, (exist_spec w aw id H L). unfold a_exist. case_decide; [done|].
      rewrite bind_lift. by case_bool_decide. }
    rewrite (fmapM_eq _ _ _ _ _ (surjective_pairing _)). rewrite (X _ eq_refl).
    assert (a_exist aw id = Ret true \/ a_exist aw id = Ret false \/ a_exist aw id = Panic) as [E|[E|E]].
    { unfold a_exist. case_decide; [tauto|]. case_bool_decide; tauto. }
    all: rewrite E; try done.
    destruct (decide (registered aw t)) as [C|C].
    + destruct (comp aw t id) as [v|] eqn:Ev.
      * destruct (detach_present_spec w aw t id v H Ev) as (w' & Ea & H'). rewrite Ea.
        assert (has aw t id) as Hh by (unfold has; rewrite Ev; eauto). destruct (decide (has aw t id)); done.
      * rewrite (detach_absent_spec w aw t id H C Ev).
        assert (~ has aw t id) as Hh by (unfold has; rewrite Ev; by intros [? ?]). destruct (decide (has aw t id)); [done|]. simpl. split; [|done]. by case_decide.
    + rewrite (unreg_detach w aw t id H C). destruct (decide (has aw t id)) as [Hh|]; [|done]. by apply has_registered' in Hh.
  - (* BatchAttach *)
    cbn [anext]. case_decide as C.
    + destruct L as (_ & _ & L). destruct (batch_spec w aw lo hi t vs H (proj1 C) (proj2 C) L) as (w' & E & H').
      rewrite (fmapM_eq _ _ _ _ _ E). done.
    + rewrite (fmapM_eq _ _ _ _ _ (batch_panic_spec w aw lo hi t vs H C)). done.
  - rewrite (fmapM_eq _ _ _ _ _ (read_spec w aw t id H)). done.
  - destruct (write_spec w aw t id v H) as (w' & E & H'). rewrite (fmapM_eq _ _ _ _ _ E). done.
  - (* StoreCount *)
    cbn [anext]. pose proof (via_storage_spec w aw t (fun s => Ret (ss_len s)) H) as S.
    destruct (a_comps aw !! t) as [m|]; simpl.
    + destruct S as (s & Rs & S). rewrite (fmapM_eq _ _ _ _ _ (S _ eq_refl)). by rewrite (rep_len _ _ _ Rs).
    + rewrite (fmapM_eq _ _ _ _ _ S). done.
  - cbn [anext]. pose proof (via_storage_spec w aw t (fun s => Ret (ss_is_empty s)) H) as S.
    destruct (a_comps aw !! t) as [m|]; simpl.
    + destruct S as (s & Rs & S). rewrite (fmapM_eq _ _ _ _ _ (S _ eq_refl)). simpl. split; [|done].
      do 3 f_equal. pose proof (rep_len _ _ _ Rs) as Hl. unfold ss_is_empty, ss_len in *.
      pose proof (rep_perm _ _ _ Rs) as Hp. apply Permutation_length in Hp.
      rewrite fmap_length in Hp. change (length (map_to_list m)) with (size m) in Hp.
      apply eq_true_iff_eq. rewrite bool_decide_eq_true. rewrite <- map_size_empty_iff.
      rewrite Nat.eqb_eq. lia.
    + rewrite (fmapM_eq _ _ _ _ _ S). done.
  - cbn [anext]. pose proof (via_storage_spec w aw t (fun s => Ret (ss_exist s id)) H) as S.
    destruct (a_comps aw !! t) as [m|]; simpl.
    + destruct S as (s & Rs & S). rewrite (fmapM_eq _ _ _ _ _ (S _ eq_refl)). by rewrite (rep_exist _ _ _ _ Rs).
    + rewrite (fmapM_eq _ _ _ _ _ S). done.
  - cbn [anext]. pose proof (via_storage_spec w aw t (fun s => ss_get s id) H) as S.
    destruct (a_comps aw !! t) as [m|]; simpl.
    + destruct S as (s & Rs & S). rewrite (fmapM_eq _ _ _ _ _ (S _ (get_rep _ _ _ _ Rs))). done.
    + rewrite (fmapM_eq _ _ _ _ _ S). done.
  - cbn [anext]. pose proof (via_storage_spec w aw t (fun s => Ret (sdata s)) H) as S.
    destruct (a_comps aw !! t) as [m|]; simpl.
    + destruct S as (s & Rs & S). rewrite (fmapM_eq _ _ _ _ _ (S _ eq_refl)). split; [|done].
      eexists. split; [done|]. by eapply rep_data.
    + rewrite (fmapM_eq _ _ _ _ _ S). split; [|done]. by exists None.
  - destruct (get_mut_spec w aw t id v H) as (w' & E & H'). rewrite (fmapM_eq _ _ _ _ _ E). done.
  - done.
  - (* MakeGroup *)
    cbn [anext]. destruct (group_refused aw k a b) eqn:Er.
    + rewrite (fmapM_eq _ _ _ _ _ (make_refused_spec w aw k a b H Er)). done.
    + destruct L as [?|(Ha & Hb & Hne)]; [done|].
      destruct (make_spec w aw k a b H Er Ha Hb Hne) as (w' & E & H'). rewrite (fmapM_eq _ _ _ _ _ E). done.
  - rewrite bind_get. pose proof (run_query_spec w aw q H L) as Q. unfold fmapM, bind, lift. cbn [anext].
    destruct (a_open aw q); [destruct Q as (l & -> & Q)|rewrite Q|done|rewrite Q]; simpl; [|done..].
    split; [|done]. by exists l.
  - pose proof (run_query_mut_spec w aw q f H L) as Q. cbn [anext].
    destruct (a_open aw q); [destruct Q as (l & w' & Q & Hl & H')| |done|]; rewrite (fmapM_eq _ _ _ _ _ Q); [|done..].
    split; [|done]. by exists l.
  - cbn [anext]. unfold register_resource. simpl. split; [done|]. by apply R_set_res.
  - rewrite (fmapM_eq _ _ _ _ _ (resource_read_spec w aw r H)). done.
  - destruct (resource_write_spec w aw r v H) as (w' & E & H'). rewrite (fmapM_eq _ _ _ _ _ E). done.
Qed.

Theorem exec_ok ops w aw : R w aw -> legal_all ops aw -> R (exec ops w) (aexec ops aw).
Proof.
  revert w aw. induction ops as [|o ops IH]; intros w aw H L; [done|]. destruct L as [L1 L2]. simpl.
  apply IH; [|done]. by apply step_ok.
Qed.
Corollary exec_init ops : legal_all ops a_init -> R (exec ops (w_new : world)) (aexec ops a_init).
Proof. apply exec_ok. apply R_new. Qed.

Lemma aexec_app ops ops' aw : aexec (ops ++ ops') aw = aexec ops' (aexec ops aw).
Proof. revert aw. induction ops; intros aw; [done|]. simpl. apply IHops. Qed.
Lemma exec_app ops ops' w : exec (ops ++ ops') w = exec ops' (exec ops w).
Proof. revert w. induction ops; intros w; [done|]. simpl. apply IHops. Qed.
Lemma legal_all_app ops ops' aw : legal_all (ops ++ ops') aw <-> legal_all ops aw /\ legal_all ops' (aexec ops aw).
Proof. revert aw. induction ops as [|o ops IH]; intros aw; simpl; [tauto|]. rewrite IH. tauto. Qed.

End main.

(** C47: a call that is refused (panics) has changed nothing.
    C48: attach and detach through an id are refused when the id is not that of
    a living entity or the type is not registered, and carried out otherwise. *)
From stdpp Require Import prelude list gmap.
From Verif Require Import Base Api ModelSparse ModelEntity ModelGroup ModelWorld ModelQuery ModelStep
  Spec History Rules Samples ProofSparse ProofEntity ProofGroup ProofWorld ProofOps ProofOps2 ProofRemove
  ProofQuery ProofQuery2 ProofQuery3 ProofQueryMut ProofMain ProofHistory PropEntity PropComp.

Section reject.
Context {V : Type}.
Implicit Types (ops : list (op V)).

(** ** C47 *)
Lemma panic_same (w : world V) aw o : R w aw -> legal aw o -> (step o w).1 = Panic -> (step o w).2 = w.
Proof.
  intros H L. destruct o; simpl in L; cbn [step].
  - rewrite (fmapM_eq _ _ _ _ _ (surjective_pairing _)). unfold register. cbn [fst snd].
    rewrite bind_get. destruct (has_registered t w); [by rewrite bind_assert_false|by rewrite bind_assert_true].
  - by rewrite bind_get.
  - destruct (create_entity_spec w aw H) as (w' & E & H'). by rewrite (fmapM_eq _ _ _ _ _ E).
  - destruct (create_entities_spec w aw n H) as (w' & E & H'). by rewrite (fmapM_eq _ _ _ _ _ E).
  - destruct L as (Hid & Hl & Hap & Hord). destruct (decide (live aw id)) as [C|C].
    + destruct (remove_spec w aw id ord H C Hap Hord) as (w' & E & H'). by rewrite (fmapM_eq _ _ _ _ _ E).
    + by rewrite (fmapM_eq _ _ _ _ _ (remove_dead_spec w aw id ord H Hid C Hl)).
  - rewrite bind_get. rewrite (exist_spec w aw id H L). unfold fmapM, bind, lift. simpl.
    unfold a_exist. case_decide; done.
  - unfold attach_component.
    assert (forall o, (let! w0 := get in let! b := lift (exist id w0) in assert b >>! entity_attach t id v) w = o ->
      o = match a_exist aw id with Ret true => entity_attach t id v w | _ => (Panic, w) end) as X.
    { intros o <-. rewrite bind_get, (exist_spec w aw id H L). unfold a_exist. case_decide; [done|].
      rewrite bind_lift. by case_bool_decide. }
    rewrite (fmapM_eq _ _ _ _ _ (surjective_pairing _)). rewrite (X _ eq_refl).
    assert (a_exist aw id = Ret true \/ a_exist aw id = Ret false \/ a_exist aw id = Panic) as [E|[E|E]].
    { unfold a_exist. case_decide; [tauto|]. case_bool_decide; tauto. }
    all: rewrite E; try done.
    destruct (decide (registered aw t)) as [C|C].
    + destruct (attach_spec w aw t id v H C) as (w' & Ea & H'). by rewrite Ea.
    + by rewrite (unreg_attach w aw t id v H C).
  - unfold detach_component.
    assert (forall o, (let! w0 := get in let! b := lift (exist id w0) in assert b >>! entity_detach t id) w = o ->
      o = match a_exist aw id with Ret true => entity_detach t id w | _ => (Panic, w) end) as X.
    { intros o <-. rewrite bind_get, (exist_spec w aw id H L). unfold a_exist. case_decide; [done|].
      rewrite bind_lift. by case_bool_decide. }
    rewrite (fmapM_eq _ _ _ _ _ (surjective_pairing _)). rewrite (X _ eq_refl).
    assert (a_exist aw id = Ret true \/ a_exist aw id = Ret false \/ a_exist aw id = Panic) as [E|[E|E]].
    { unfold a_exist. case_decide; [tauto|]. case_bool_decide; tauto. }
    all: rewrite E; try done.
    destruct (decide (registered aw t)) as [C|C].
    + destruct (comp aw t id) as [v|] eqn:Ev.
      * destruct (detach_present_spec w aw t id v H Ev) as (w' & Ea & H'). by rewrite Ea.
      * by rewrite (detach_absent_spec w aw t id H C Ev).
    + by rewrite (unreg_detach w aw t id H C).
  - destruct (decide (registered aw t /\ length vs = hi - lo)) as [C|C].
    + destruct L as (_ & _ & L). destruct (batch_spec w aw lo hi t vs H (proj1 C) (proj2 C) L) as (w' & E & H').
      by rewrite (fmapM_eq _ _ _ _ _ E).
    + by rewrite (fmapM_eq _ _ _ _ _ (batch_panic_spec w aw lo hi t vs H C)).
  - by rewrite (fmapM_eq _ _ _ _ _ (read_spec w aw t id H)).
  - destruct (write_spec w aw t id v H) as (w' & E & H'). by rewrite (fmapM_eq _ _ _ _ _ E).
  - pose proof (via_storage_spec w aw t (fun s => Ret (ss_len s)) H) as S.
    destruct (a_comps aw !! t) as [m|]; simpl.
    + destruct S as (s & Rs & S). by rewrite (fmapM_eq _ _ _ _ _ (S _ eq_refl)).
    + by rewrite (fmapM_eq _ _ _ _ _ S).
  - pose proof (via_storage_spec w aw t (fun s => Ret (ss_is_empty s)) H) as S.
    destruct (a_comps aw !! t) as [m|]; simpl.
    + destruct S as (s & Rs & S). by rewrite (fmapM_eq _ _ _ _ _ (S _ eq_refl)).
    + by rewrite (fmapM_eq _ _ _ _ _ S).
  - pose proof (via_storage_spec w aw t (fun s => Ret (ss_exist s id)) H) as S.
    destruct (a_comps aw !! t) as [m|]; simpl.
    + destruct S as (s & Rs & S). by rewrite (fmapM_eq _ _ _ _ _ (S _ eq_refl)).
    + by rewrite (fmapM_eq _ _ _ _ _ S).
  - pose proof (via_storage_spec w aw t (fun s => ss_get s id) H) as S.
    destruct (a_comps aw !! t) as [m|]; simpl.
    + destruct S as (s & Rs & S). by rewrite (fmapM_eq _ _ _ _ _ (S _ (get_rep _ _ _ _ Rs))).
    + by rewrite (fmapM_eq _ _ _ _ _ S).
  - pose proof (via_storage_spec w aw t (fun s => Ret (sdata s)) H) as S.
    destruct (a_comps aw !! t) as [m|]; simpl.
    + destruct S as (s & Rs & S). by rewrite (fmapM_eq _ _ _ _ _ (S _ eq_refl)).
    + by rewrite (fmapM_eq _ _ _ _ _ S).
  - destruct (get_mut_spec w aw t id v H) as (w' & E & H'). by rewrite (fmapM_eq _ _ _ _ _ E).
  - done.
  - destruct (group_refused aw k a b) eqn:Er.
    + by rewrite (fmapM_eq _ _ _ _ _ (make_refused_spec w aw k a b H Er)).
    + destruct L as [?|(Ha & Hb & Hne)]; [done|].
      destruct (make_spec w aw k a b H Er Ha Hb Hne) as (w' & E & H'). by rewrite (fmapM_eq _ _ _ _ _ E).
  - rewrite bind_get. pose proof (run_query_spec w aw q H L) as Q. unfold fmapM, bind, lift.
    destruct (a_open aw q); [destruct Q as (l & -> & Q)|rewrite Q|done|rewrite Q]; done.
  - pose proof (run_query_mut_spec w aw q f H L) as Q.
    destruct (a_open aw q); [destruct Q as (l & w' & Q & Hl & H')| |done|]; by rewrite (fmapM_eq _ _ _ _ _ Q).
  - done.
  - by rewrite (fmapM_eq _ _ _ _ _ (resource_read_spec w aw r H)).
  - destruct (resource_write_spec w aw r v H) as (w' & E & H'). by rewrite (fmapM_eq _ _ _ _ _ E).
Qed.

(** A call within the rules that panics leaves the world as it was: whatever
    is done afterwards goes as if it had not been made. *)
Theorem C47_panic_changes_nothing ops o : rules (ops ++ [o]) -> answer ops o = Panic ->
  after (ops ++ [o]) = after ops /\
  forall later o', answer (ops ++ o :: later) o' = answer (ops ++ later) o'.
Proof.
  intros [L1 L2]%rules_snoc E. destruct (reached ops L1) as [H _].
  assert (after (ops ++ [o]) = after ops) as E'.
  { rewrite after_snoc. by apply (panic_same _ _ o H L2). }
  split; [done|]. intros later o'. unfold answer.
  assert (after (ops ++ o :: later) = after (ops ++ later)) as ->; [|done].
  replace (ops ++ o :: later) with ((ops ++ [o]) ++ later) by (by rewrite <- app_assoc).
  unfold after in *. rewrite (exec_app (ops ++ [o])), E'. by rewrite exec_app.
Qed.

(** ** C48 *)
Lemma exist_seen ops id : rules ops -> 1 <= id ->
  a_exist (aexec ops a_init) id = Ret true <-> id ∈ alive (seen ops) \/ last (waiting (seen ops)) = Some id.
Proof.
  intros L Hid. destruct (reached ops L) as [HR A]. rewrite (ag_alive _ _ A), (ag_wait _ _ A).
  unfold a_exist, live, allocated. case_decide as C.
  - split; [done|]. intros [?|Hl]; [lia|]. apply last_Some_elem_of in Hl.
    pose proof (proj1 (er_elem _ _ _ id (R_em _ _ HR)) (or_intror Hl)). lia.
  - split.
    + intros E. injection E as E. apply bool_decide_eq_true in E. destruct E; [left|by right]. split; [lia|done].
    + intros E. f_equal. apply bool_decide_eq_true. destruct E as [[_ ?]|?]; tauto.
Qed.

(** [attach_component] / [detach_component], [t] any type, on a positive id *)
Definition by_id (o : op V) (t id : nat) : Prop := 1 <= id /\ ((exists v, o = Attach t id v) \/ o = Detach t id).

Lemma by_id_legal aw o t id : by_id o t id -> legal aw o.
Proof. intros [Hid [[v ->]| ->]]; done. Qed.
Lemma by_id_refused ops o t id : rules ops -> by_id o t id ->
  (id ∉ alive (seen ops) /\ last (waiting (seen ops)) <> Some id) \/ t ∉ types_of (seen ops) ->
  answer ops o = Panic.
Proof.
  intros L B Hd. assert (rules (ops ++ [o])) as L' by (apply rules_snoc; split; [done|by eapply by_id_legal]).
  pose proof (answer_ok ops o L') as Ho. destruct (reached ops L) as [HR A].
  pose proof (exist_seen ops id L) as X. destruct B as [Hid B]. specialize (X Hid).
  assert (~ registered (aexec ops a_init) t \/ a_exist (aexec ops a_init) id <> Ret true) as D.
  { destruct Hd as [[H1 H2]|H1]; [right|left]; [tauto|by rewrite <- (ag_reg _ _ A)]. }
  destruct B as [[v ->]| ->]; cbn [aout] in Ho; rewrite Ho;
    destruct (a_exist (aexec ops a_init) id) as [[]| | |]; try done;
    destruct D as [D|D]; try done; by rewrite decide_False.
Qed.

(** Refused: the id is not that of a living entity, or the type is not
    registered.  One kind of id escapes: the removed id waiting longest. *)
Theorem C48_refused_partial ops o t id : rules ops -> by_id o t id ->
  (id ∉ alive (seen ops) /\ last (waiting (seen ops)) <> Some id) \/ t ∉ types_of (seen ops) ->
  step o (after ops) = (Panic, after ops).
Proof.
  intros L B Hd. pose proof (by_id_refused ops o t id L B Hd) as E.
  destruct (reached ops L) as [HR _]. pose proof (panic_same _ _ o HR (by_id_legal _ _ _ _ B) E) as E'.
  rewrite (surjective_pairing (step o (after ops))). by f_equal.
Qed.
(** ids never handed out are refused, whatever else *)
Theorem C48_never_handed ops o t id : rules ops -> by_id o t id -> id ∉ handed (seen ops) ->
  step o (after ops) = (Panic, after ops).
Proof.
  intros L B Hn. apply (C48_refused_partial ops o t id L B). left. destruct (reached ops L) as [HR A].
  split.
  - intros Ha. apply Hn, (ag_handed _ _ A). apply (ag_alive _ _ A) in Ha. by destruct Ha.
  - intros Hl. apply last_Some_elem_of in Hl. destruct (C09_waiting_exact ops L) as [_ W]. by apply W in Hl as [? _].
Qed.
(** Carried out otherwise.  (A detach of a component the entity does not have
    is C04's business.) *)
Theorem C48_accepted ops t id : rules ops -> id ∈ alive (seen ops) -> t ∈ types_of (seen ops) ->
  (forall v, answer ops (Attach t id v) = Ret OUnit /\ value_of (seen (ops ++ [Attach t id v])) t id = Some v) /\
  (forall v, value_of (seen ops) t id = Some v ->
     answer ops (Detach t id) = Ret (OVal (Some v)) /\ value_of (seen (ops ++ [Detach t id])) t id = None).
Proof.
  intros L Ha Ht. destruct (reached ops L) as [HR A].
  assert (1 <= id) as Hid by (apply (ag_alive _ _ A) in Ha as [[? _] _]; done).
  pose proof (proj2 (exist_seen ops id L Hid) (or_introl Ha)) as X. apply (ag_reg _ _ A) in Ht.
  split; intros v.
  - assert (answer ops (Attach t id v) = Ret OUnit) as E.
    { pose proof (answer_ok ops (Attach t id v)) as Ho. rewrite Ho by (by apply rules_snoc).
      rewrite X. by rewrite decide_True. }
    split; [done|]. rewrite seen_snoc, value_snoc. rewrite E. simpl. by rewrite !decide_True.
  - intros Hv. assert (answer ops (Detach t id) = Ret (OVal (Some v))) as E.
    { pose proof (answer_ok ops (Detach t id)) as Ho. rewrite Ho by (by apply rules_snoc).
      rewrite X. rewrite decide_True by done. rewrite (ag_val _ _ A) in Hv. by rewrite Hv. }
    split; [done|]. rewrite seen_snoc, value_snoc. rewrite E. simpl. by rewrite !decide_True.
Qed.
End reject.

(** The full C48 is false: the removed id waiting longest takes components. *)
Theorem C48_refused_refuted : exists (ops : list (op nat)) t id v,
  rules ops /\ id ∉ alive (seen ops) /\ id ∈ waiting (seen ops) /\
  answer ops (Attach t id v) = Ret OUnit /\
  answer (ops ++ [Attach t id v]) (ReadComp t id) = Ret (OVal (Some v)) /\
  answer (ops ++ [Attach t id v]) (Detach t id) = Ret (OVal (Some v)).
Proof.
  exists [Register 7; CreateEntity; RemoveEntity 1 [7]], 7, 1, 99.
  split; [check_rules|]. split; [by_compute|]. split; [by_compute|]. by vm_compute.
Qed.
(** Outside the rules a panic may leave a changed world behind: make_group over
    an unregistered type (C34) pushes the group first. *)
Theorem C47_outside_rules : exists (ops : list (op nat)) o o',
  rules ops /\ answer ops o = Panic /\ answer (ops ++ [o]) o' <> answer ops o'.
Proof.
  exists [Register 1; Register 2; CreateEntity; Attach 1 1 10], (MakeGroup KFull 1 9), (Detach 1 1).
  split; [check_rules|]. split; [by vm_compute|]. by vm_compute.
Qed.

(** ** Cases *)
Example C47_case : let ops := sample in
  rules (ops ++ [Detach 9 2]) /\ answer ops (Detach 9 2) = Panic /\
  rules (ops ++ [MakeGroup KFull 1 2]) /\ answer ops (MakeGroup KFull 1 2) = Panic /\
  rules (ops ++ [Attach 1 99 0]) /\ answer ops (Attach 1 99 0) = Panic.
Proof.
  split; [check_rules|]. split; [by vm_compute|]. split; [check_rules|]. split; [by vm_compute|].
  split; [check_rules|]. by vm_compute.
Qed.
Example C48_case : let ops := sample ++ [RemoveEntity 4 [1; 2]; RemoveEntity 5 [1; 2]] in
  rules ops /\ by_id (Attach 1 5 77) 1 5 /\ 5 ∉ alive (seen ops) /\ last (waiting (seen ops)) <> Some 5 /\
  1 ∈ types_of (seen ops) /\ 2 ∈ alive (seen ops).
Proof.
  split; [check_rules|]. split; [split; [lia|left; by eexists]|]. split; [by_compute|].
  split; [by vm_compute|]. split; by_compute.
Qed.

(** Properties of entities: C08-C15.  Vocabulary: ModelStep.v ([answer],
    [seen], [after]: the code), Spec.v ([rules]), History.v ([alive],
    [waiting], [handed]: read off what the caller has seen). *)
From stdpp Require Import prelude list gmap.
From Verif Require Import Base Api ModelSparse ModelEntity ModelGroup ModelWorld ModelQuery ModelStep
  Spec History Rules Samples ProofSparse ProofEntity ProofGroup ProofWorld ProofOps ProofOps2 ProofRemove
  ProofQuery ProofQuery2 ProofQuery3 ProofQueryMut ProofMain ProofHistory.

Section entity.
Context {V : Type}.
Implicit Types (ops : list (op V)) (id n : nat).

Lemma reached ops : rules ops -> R (after ops) (aexec ops a_init) /\ agree (seen ops) (aexec ops a_init).
Proof. intros L. split; [by apply exec_init|by apply agree_exec]. Qed.
Lemma rules_snoc ops o : rules (ops ++ [o]) <-> rules ops /\ legal (aexec ops a_init) o.
Proof. unfold rules. rewrite legal_all_app. simpl. tauto. Qed.
Lemma answer_ok ops o : rules (ops ++ [o]) -> aout (aexec ops a_init) o (answer ops o).
Proof. intros [L1 L2]%rules_snoc. destruct (reached ops L1) as [H _]. by apply step_ok. Qed.

(** the number of ids ever handed out, and they are 1..that *)
Lemma handed_size ops : rules ops -> size (handed (seen ops)) = a_next (aexec ops a_init).
Proof.
  intros L. destruct (reached ops L) as [_ A].
  assert (handed (seen ops) = set_seq 1 (a_next (aexec ops a_init))) as ->.
  { apply set_eq. intros x. rewrite (ag_handed _ _ A), elem_of_set_seq. unfold allocated. lia. }
  apply size_set_seq.
Qed.
Lemma exist_answer ops id : rules ops -> 1 <= id ->
  answer ops (Exist id) = match a_exist (aexec ops a_init) id with Ret b => Ret (OBool b) | _ => Panic end.
Proof. intros L Hid. apply (answer_ok ops (Exist id)). apply rules_snoc. done. Qed.

(** ** C08 *)
(** create_entity returns a non-zero id that is not alive; afterwards it is
    alive, exist says so, and exist answers as before about every other id. *)
Theorem C08_create_fresh ops : rules ops ->
  exists id, answer ops CreateEntity = Ret (OId id) /\ id <> 0 /\ id ∉ alive (seen ops) /\
    alive (seen (ops ++ [CreateEntity])) = {[id]} ∪ alive (seen ops) /\
    answer (ops ++ [CreateEntity]) (Exist id) = Ret (OBool true) /\
    forall j, 1 <= j -> j <> id ->
      answer (ops ++ [CreateEntity]) (Exist j) = answer ops (Exist j).
Proof.
  intros L. assert (rules (ops ++ [CreateEntity])) as L' by (by apply rules_snoc).
  destruct (reached ops L) as [H A]. pose proof (answer_ok ops CreateEntity L') as E. simpl in E.
  set (aw := aexec ops a_init) in *. destruct (R_free _ _ H) as [Fn Fa].
  eexists. split; [exact E|]. set (id := match a_free aw with [] => S (a_next aw) | f :: _ => f end) in *.
  assert (1 <= id) as Hid.
  { unfold id. destruct (a_free aw) as [|f fs]; [lia|]. destruct (Fa f); [left|lia]. }
  assert (id ∉ alive (seen ops)) as Hna.
  { rewrite (ag_alive _ _ A). unfold live, allocated, id. destruct (a_free aw) as [|f fs] eqn:Ef; [lia|].
    rewrite elem_of_cons. tauto. }
  split; [lia|]. split; [done|].
  assert (seen (ops ++ [CreateEntity]) = seen ops ++ [(CreateEntity, Ret (OId id))]) as Es.
  { unfold seen. rewrite trace_snoc. do 2 f_equal. f_equal. exact E. }
  split. { rewrite Es, alive_snoc. simpl. set_solver. }
  assert (aexec (ops ++ [CreateEntity]) a_init = anext aw CreateEntity) as Ea by (by rewrite aexec_app).
  split.
  - rewrite exist_answer, Ea by done. unfold a_exist, id. simpl. destruct (a_free aw) as [|f fs] eqn:Ef; simpl.
    + by rewrite decide_False by lia.
    + assert (allocated aw f) as Hf by (apply Fa; left). unfold allocated in Hf. rewrite decide_False by lia.
      apply NoDup_cons in Fn as [Fn _]. by rewrite bool_decide_eq_true_2 by (by left).
  - intros j Hj Hne. rewrite !exist_answer, Ea by done. unfold a_exist, id in *. simpl. fold aw.
    destruct (a_free aw) as [|f fs] eqn:Ef; simpl.
    + repeat case_decide; try done; try lia.
    + case_decide; [done|]. do 2 f_equal. apply bool_decide_ext. rewrite elem_of_cons.
      destruct fs as [|g gs].
      * assert (j ∉ ([] : list nat)) as Hnil by apply not_elem_of_nil. simpl. split.
        -- intros _. left. intros [?|?]; tauto.
        -- intros _. by left.
      * rewrite last_cons_cons. tauto.
Qed.

(** ** C09 *)
(** create_entity returns the id removed last among those waiting; if none
    waits, one more than the number of ids ever handed out. *)
Theorem C09_create_recycles_lifo ops : rules ops ->
  answer ops CreateEntity =
  Ret (OId (match waiting (seen ops) with
            | i :: _ => i
            | [] => S (size (handed (seen ops)))
            end)).
Proof.
  intros L. assert (rules (ops ++ [CreateEntity])) as L' by (by apply rules_snoc).
  destruct (reached ops L) as [H A]. pose proof (answer_ok ops CreateEntity L') as E. simpl in E. rewrite E.
  rewrite (ag_wait _ _ A), (handed_size ops L). by destruct (a_free _).
Qed.
(** what is waiting: exactly the ids handed out and not alive, each once *)
Theorem C09_waiting_exact ops : rules ops ->
  NoDup (waiting (seen ops)) /\
  forall id, id ∈ waiting (seen ops) <-> id ∈ handed (seen ops) /\ id ∉ alive (seen ops).
Proof.
  intros L. destruct (reached ops L) as [H A]. destruct (R_free _ _ H) as [Fn Fa].
  rewrite (ag_wait _ _ A). split; [done|]. intros id. rewrite (ag_handed _ _ A), (ag_alive _ _ A). unfold live.
  split; [intros Hin; split; [by apply Fa|tauto]|]. intros [Ha Hl].
  destruct (decide (id ∈ a_free (aexec ops a_init))); [done|tauto].
Qed.

(** ** C10 *)
Theorem C10_create_entities ops n : rules ops ->
  let k := S (size (handed (seen ops))) in
  let ops' := ops ++ [CreateEntities n] in
  answer ops (CreateEntities n) = Ret (ORange k (k + n)) /\
  (forall id, k <= id < k + n -> id ∉ handed (seen ops) /\ id ∈ alive (seen ops') /\
     answer ops' (Exist id) = Ret (OBool true)) /\
  (forall id, id ∈ alive (seen ops) -> id ∈ alive (seen ops')) /\
  waiting (seen ops') = waiting (seen ops).
Proof.
  intros L k ops'. assert (rules ops') as L' by (by apply rules_snoc).
  destruct (reached ops L) as [H A]. destruct (reached ops' L') as [H' A'].
  pose proof (answer_ok ops (CreateEntities n) L') as E. simpl in E.
  assert (k = S (a_next (aexec ops a_init))) as Ek by (unfold k; by rewrite handed_size).
  rewrite <- Ek in E. split; [rewrite E; do 2 f_equal; lia|].
  destruct (R_free _ _ H) as [Fn Fa].
  assert (aexec ops' a_init = anext (aexec ops a_init) (CreateEntities n)) as Ea by (unfold ops'; by rewrite aexec_app).
  assert (forall id, k <= id < k + n -> id ∈ alive (seen ops')) as Hal.
  { intros id Hid. rewrite (ag_alive _ _ A'), Ea. unfold live, allocated. simpl. split; [lia|].
    intros Hin. apply Fa in Hin. unfold allocated in Hin. lia. }
  split; [|split].
  - intros id Hid. split; [|split; [by apply Hal|]].
    + rewrite (ag_handed _ _ A). unfold allocated. lia.
    + rewrite exist_answer by (done || lia). pose proof (Hal id Hid) as X. rewrite (ag_alive _ _ A') in X.
      unfold a_exist. destruct X as [X1 X2]. unfold allocated in X1. rewrite decide_False by lia.
      by rewrite bool_decide_eq_true_2 by (by left).
  - intros id. rewrite (ag_alive _ _ A'), (ag_alive _ _ A), Ea. unfold live, allocated. simpl. intros [? ?]. split; [lia|done].
  - rewrite (ag_wait _ _ A'), (ag_wait _ _ A), Ea. done.
Qed.

(** ** C12, C13, C14: exist *)
(** exist(id) (and entity(id).is_some()) is true of live entities. *)
Theorem C12_exist_live ops id : rules ops -> id ∈ alive (seen ops) ->
  answer ops (Exist id) = Ret (OBool true).
Proof.
  intros L Hl. destruct (reached ops L) as [H A]. apply (ag_alive _ _ A) in Hl as [Ha Hf]. unfold allocated in Ha.
  rewrite exist_answer by (done || lia). unfold a_exist. rewrite decide_False by lia.
  by rewrite bool_decide_eq_true_2 by (by left).
Qed.
(** C13, as far as it is true: of a removed id that waits for reuse, exist
    says false unless it is the one that has been waiting longest - of that
    one it says true. *)
Theorem C13_exist_removed_partial ops id : rules ops -> id ∈ waiting (seen ops) ->
  answer ops (Exist id) = Ret (OBool (bool_decide (last (waiting (seen ops)) = Some id))).
Proof.
  intros L Hw. destruct (reached ops L) as [H A]. rewrite (ag_wait _ _ A) in *. destruct (R_free _ _ H) as [Fn Fa].
  pose proof (Fa _ Hw) as Ha. unfold allocated in Ha.
  rewrite exist_answer by (done || lia). unfold a_exist. rewrite decide_False by lia.
  do 2 f_equal. apply bool_decide_ext. tauto.
Qed.
(** C14, as far as it is true: exist answers for the ids handed out, and
    panics (changing nothing) for all others. *)
Theorem C14_exist_total_partial ops id : rules ops -> 1 <= id ->
  (id ∈ handed (seen ops) -> exists b, answer ops (Exist id) = Ret (OBool b)) /\
  (id ∉ handed (seen ops) -> answer ops (Exist id) = Panic) /\
  (step (Exist id) (after ops)).2 = after ops.
Proof.
  intros L Hid. destruct (reached ops L) as [H A]. rewrite (ag_handed _ _ A). rewrite exist_answer by done.
  unfold allocated, a_exist. split; [|split].
  - intros Ha. rewrite decide_False by lia. eauto.
  - intros Ha. by rewrite decide_True by lia.
  - simpl. unfold fmapM, bind, lift, get. simpl. by destruct (exist id (after ops)).
Qed.

(** ** C15 *)
(** Removing an id that is not alive panics and changes nothing - except for
    the removed id that has been waiting longest. *)
Theorem C15_remove_dead_partial ops id ord : rules ops -> 1 <= id -> id ∉ alive (seen ops) ->
  last (waiting (seen ops)) <> Some id ->
  step (RemoveEntity id ord) (after ops) = (Panic, after ops).
Proof.
  intros L Hid Hl Hw. destruct (reached ops L) as [H A]. rewrite (ag_wait _ _ A) in *. rewrite (ag_alive _ _ A) in Hl.
  simpl. apply (fmapM_eq (fun _ => OUnit) _ _ _ _ (remove_dead_spec _ _ id ord H Hid Hl Hw)).
Qed.
End entity.

(** ** C11 *)
Section c11.
Context {V : Type}.
Implicit Types (ops : list (op V)).

(** the largest id handed out *)
Definition max_id (s : gset nat) : nat := max_list (elements s).

Lemma aexec_next_free ops aw : (forall n, CreateEntities n ∉ ops) ->
  forall w, R w aw -> legal_all ops aw ->
  a_next aw <= a_next (aexec ops aw).
Proof.
  revert aw. induction ops as [|o ops IH]; intros aw Hn w H L; [done|]. simpl. destruct L as [L1 L2].
  etrans; [|eapply (IH (anext aw o)); [|by apply step_ok|done]].
  - destruct (ent_op o) eqn:E; [|destruct (ent_frame aw o E) as [-> _]; done].
    destruct o; try done; simpl; [destruct (a_free aw); simpl; lia|lia|by case_decide].
  - intros n Hin. apply (Hn n). by right.
Qed.

(** number of live entities *)
Lemma alive_count ops : rules ops ->
  size (alive (seen ops)) + length (a_free (aexec ops a_init)) = a_next (aexec ops a_init).
Proof.
  intros L. destruct (reached ops L) as [H A]. destruct (R_free _ _ H) as [Fn Fa].
  rewrite <- (handed_size ops L). rewrite <- (size_list_to_set (C := gset nat) _ Fn).
  rewrite <- size_union.
  - f_equal. apply set_eq. intros x. rewrite elem_of_union, elem_of_list_to_set, (ag_alive _ _ A), (ag_handed _ _ A).
    unfold live. split; [intros [[? ?]|?]; [done|by apply Fa]|]. intros ?.
    destruct (decide (x ∈ a_free (aexec ops a_init))); [by right|left; done].
  - intros x. rewrite (ag_alive _ _ A), elem_of_list_to_set. by intros [_ ?].
Qed.
Lemma max_id_next ops : rules ops -> max_id (handed (seen ops)) = a_next (aexec ops a_init).
Proof.
  intros L. destruct (reached ops L) as [H A]. unfold max_id.
  assert (forall x, x ∈ elements (handed (seen ops)) <-> 1 <= x <= a_next (aexec ops a_init)) as E.
  { intros x. rewrite elem_of_elements. apply (ag_handed _ _ A). }
  apply Nat.le_antisymm.
  - apply max_list_not_elem_of_gt_ge || idtac.
    clear -E. assert (forall x, x ∈ elements (handed (seen ops)) -> x <= a_next (aexec ops a_init)) as E' by (intros x Hx; apply E in Hx; lia).
    revert E'. clear E. induction (elements (handed (seen ops))) as [|y l IH]; intros E'; simpl; [lia|].
    apply Nat.max_lub; [apply E'; left|apply IH; intros x Hx; apply E'; by right].
  - destruct (decide (a_next (aexec ops a_init) = 0)) as [->|Hne]; [lia|].
    apply max_list_elem_of_le. apply E. lia.
Qed.

(** With create_entity as the only source of ids, the largest id ever handed
    out is the largest number of entities alive at the same time: at no time
    were more alive, and at some time that many were. *)
Theorem C11_no_id_leak ops : rules ops -> (forall n, CreateEntities n ∉ ops) ->
  let m := max_id (handed (seen ops)) in
  (forall k, size (alive (seen (take k ops))) <= m) /\
  (exists k, size (alive (seen (take k ops))) = m).
Proof.
  intros L Hn m. unfold m. rewrite (max_id_next ops L). clear m.
  assert (forall k, rules (take k ops) /\ legal_all (drop k ops) (aexec (take k ops) a_init) /\
    aexec ops a_init = aexec (drop k ops) (aexec (take k ops) a_init)) as P.
  { intros k. unfold rules in *. rewrite <- (take_drop k ops) in L. apply legal_all_app in L as [L1 L2].
    split; [done|]. split; [done|]. by rewrite <- aexec_app, take_drop. }
  split.
  - intros k. destruct (P k) as (L1 & L2 & E). pose proof (alive_count _ L1) as C.
    destruct (reached _ L1) as [H1 _]. rewrite E.
    pose proof (aexec_next_free (drop k ops) (aexec (take k ops) a_init)) as N.
    assert (forall n, CreateEntities n ∉ drop k ops) as Hn'.
    { intros n Hin. apply (Hn n). rewrite <- (take_drop k ops). apply elem_of_app. by right. }
    specialize (N Hn' _ H1 L2). lia.
  - (* the last time a fresh id was made, the stack was empty *)
    clear P. induction ops as [|o ops IH] using rev_ind.
    + exists 0. done.
    + assert (rules ops) as L1 by (by apply rules_snoc in L as [? _]).
      assert (forall n, CreateEntities n ∉ ops) as Hn1.
      { intros n Hin. apply (Hn n). apply elem_of_app. by left. }
      destruct (IH L1 Hn1) as [k Hk]. rewrite aexec_app. simpl.
      assert (a_next (anext (aexec ops a_init) o) = a_next (aexec ops a_init) \/
        (a_free (anext (aexec ops a_init) o) = [] )) as [E|E].
      { destruct (ent_op o) eqn:E; [|left; apply (ent_frame _ o E)].
        destruct o; try done; simpl.
        - destruct (a_free (aexec ops a_init)) eqn:Ef; simpl; [by right|by left].
        - exfalso. apply (Hn n). apply elem_of_app. right. left.
        - left. by case_decide. }
      * exists (k `min` length ops). rewrite E, <- Hk.
        rewrite take_app_le by lia. f_equal. f_equal. f_equal.
        destruct (decide (k <= length ops)); [by rewrite Nat.min_l by lia|].
        rewrite Nat.min_r by lia. rewrite !take_ge by lia. done.
      * exists (length (ops ++ [o])). rewrite take_ge by done.
        pose proof (alive_count _ L) as C. rewrite aexec_app in C. simpl in C. rewrite E in C. simpl in C. lia.
Qed.
End c11.

(** ** C18 *)
(** In this history components were attached only to entities alive at that
    moment.  (attach_component checks [exist], which is wrong about one removed
    id; batch attach is only possible on ids just created.) *)
Definition attach_to_live {V} (ops : list (op V)) : Prop :=
  forall pre o post, ops = pre ++ o :: post ->
  match o with
  | Attach _ id _ => id ∈ alive (seen pre)
  | BatchAttach lo hi _ _ => forall id, lo <= id < hi -> id ∈ alive (seen pre)
  | _ => True
  end.

Section c18.
Context {V : Type}.
Implicit Types (ops : list (op V)).

Lemma attach_to_live_snoc ops o : attach_to_live (ops ++ [o]) ->
  attach_to_live ops /\
  match o with
  | Attach _ id _ => id ∈ alive (seen ops)
  | BatchAttach lo hi _ _ => forall id, lo <= id < hi -> id ∈ alive (seen ops)
  | _ => True
  end.
Proof.
  intros H. split.
  - intros pre o' post ->. apply (H pre o' (post ++ [o])). by rewrite <- app_assoc.
  - by apply (H ops o []).
Qed.
Lemma seen_snoc ops o : seen (ops ++ [o]) = seen ops ++ [(o, answer ops o)].
Proof. apply trace_snoc. Qed.
Lemma value_snoc (h : history V) ev t id : value_of (h ++ [ev]) t id = comp_event t id (value_of h t id) ev.
Proof. unfold value_of. by rewrite foldl_app. Qed.

Lemma dead_no_components ops : rules ops -> attach_to_live ops ->
  forall id t, id ∉ alive (seen ops) -> value_of (seen ops) t id = None.
Proof.
  induction ops as [|o ops IH] using rev_ind; intros L HA id t Hd; [done|].
  pose proof L as L'. apply rules_snoc in L' as [L1 L2]. apply attach_to_live_snoc in HA as [HA1 HA2].
  specialize (IH L1 HA1 id t). pose proof (answer_ok ops o L) as O.
  destruct (reached ops L1) as [H A].
  rewrite seen_snoc in *. rewrite value_snoc. rewrite alive_snoc in Hd.
  set (r := answer ops o) in *. clearbody r. rename r into rr.
  destruct o; cbn [aout] in O; subst; simpl in Hd; try (apply IH; set_solver).
  - (* RemoveEntity *) cbn [comp_event]. destruct (decide (live (aexec ops a_init) id0)) as [C|C].
    + destruct (decide (id0 = id)); [done|]. apply IH. set_solver.
    + apply IH. set_solver.
  - (* Attach *) cbn [comp_event].
    destruct (a_exist_cases (aexec ops a_init) id0) as [E|[E|E]]; rewrite E in *; try (apply IH; set_solver).
    destruct (decide (registered (aexec ops a_init) t0)); [|apply IH; set_solver].
    destruct (decide (t0 = t /\ id0 = id)) as [[-> ->]|]; [set_solver|apply IH; set_solver].
  - (* Detach *)
    assert (forall X, comp_event t id (value_of (seen ops) t id) (Detach t0 id0, X) = None) as G; [|apply G].
    intros X. cbn [comp_event]. destruct X; try (apply IH; set_solver).
    destruct (decide (t0 = t /\ id0 = id)); [done|apply IH; set_solver].
  - (* BatchAttach *) cbn [comp_event].
    destruct (decide (registered (aexec ops a_init) t0 /\ length vs = hi - lo)); [|apply IH; set_solver].
    destruct (decide (t0 = t /\ lo <= id < hi)) as [[-> ?]|]; [|apply IH; set_solver].
    exfalso. apply Hd. rewrite elem_of_union. left. by apply HA2.
  - (* WriteComp *) cbn [comp_event]. rewrite IH by set_solver.
    destruct (bool_decide (has (aexec ops a_init) t0 id0)) eqn:E; [|done].
    destruct (decide (t0 = t /\ id0 = id)) as [[-> ->]|]; [|done].
    apply bool_decide_eq_true in E as [x E]. rewrite <- (ag_val _ _ A) in E. rewrite IH in E by set_solver. done.
  - cbn [comp_event]. rewrite IH by set_solver.
    destruct (bool_decide (has (aexec ops a_init) t0 id0)) eqn:E; [|done].
    destruct (decide (t0 = t /\ id0 = id)) as [[-> ->]|]; [|done].
    apply bool_decide_eq_true in E as [x E]. rewrite <- (ag_val _ _ A) in E. rewrite IH in E by set_solver. done.
  - (* QueryMut *) cbn [comp_event]. rewrite IH by set_solver.
    destruct rr as [[]| | |]; try done. by destruct (decide (id ∈ l.*1 /\ t ∈ q_muts q)).
Qed.

(** ids that were never handed out have no components *)
Lemma unhanded_no_components ops : rules ops ->
  forall id t, id ∉ handed (seen ops) -> value_of (seen ops) t id = None.
Proof.
  induction ops as [|o ops IH] using rev_ind; intros L id t Hd; [done|].
  pose proof L as L'. apply rules_snoc in L' as [L1 L2].
  specialize (IH L1 id t). pose proof (answer_ok ops o L) as O.
  destruct (reached ops L1) as [H A].
  rewrite seen_snoc in *. rewrite value_snoc. rewrite handed_snoc in Hd. assert (id ∉ handed (seen ops)) as Hd0 by tauto. clear Hd. rename Hd0 into Hd. specialize (IH Hd).
  rewrite (ag_handed _ _ A) in Hd.
  set (r := answer ops o) in *. clearbody r. rename r into rr.
  destruct o; cbn [aout] in O; subst; try exact IH.
  - (* RemoveEntity *) cbn [comp_event]. destruct (decide (live (aexec ops a_init) id0)); [|done]. by destruct (decide (id0 = id)).
  - (* Attach *) cbn [comp_event].
    destruct (a_exist_cases (aexec ops a_init) id0) as [E|[E|E]]; rewrite E in *; try exact IH.
    destruct (decide (registered (aexec ops a_init) t0)); [|exact IH].
    destruct (decide (t0 = t /\ id0 = id)) as [[-> ->]|]; [|exact IH]. exfalso. apply Hd. cbn [legal] in L2.
    unfold a_exist in E. destruct (decide (a_next _ < id)); [done|]. unfold allocated. lia.
  - (* Detach *)
    assert (forall X, comp_event t id (value_of (seen ops) t id) (Detach t0 id0, X) = None) as G; [|apply G].
    intros X. cbn [comp_event]. destruct X; try exact IH. by destruct (decide (t0 = t /\ id0 = id)).
  - (* BatchAttach *) cbn [comp_event].
    destruct (decide (registered (aexec ops a_init) t0 /\ length vs = hi - lo)); [|exact IH].
    destruct (decide (t0 = t /\ lo <= id < hi)) as [[-> ?]|]; [|exact IH].
    exfalso. apply Hd. destruct L2 as (? & ? & _). unfold allocated. lia.
  - (* WriteComp *) cbn [comp_event]. rewrite IH.
    destruct (bool_decide (has (aexec ops a_init) t0 id0)) eqn:E; [|done].
    destruct (decide (t0 = t /\ id0 = id)) as [[-> ->]|]; [|done].
    apply bool_decide_eq_true in E as [x E]. rewrite <- (ag_val _ _ A) in E. rewrite IH in E. done.
  - cbn [comp_event]. rewrite IH.
    destruct (bool_decide (has (aexec ops a_init) t0 id0)) eqn:E; [|done].
    destruct (decide (t0 = t /\ id0 = id)) as [[-> ->]|]; [|done].
    apply bool_decide_eq_true in E as [x E]. rewrite <- (ag_val _ _ A) in E. rewrite IH in E. done.
  - (* QueryMut *) cbn [comp_event]. rewrite IH.
    destruct rr as [[]| | |]; try done. by destruct (decide (id ∈ l.*1 /\ t ∈ q_muts q)).
Qed.

Lemma read_answer ops t id : rules ops -> answer ops (ReadComp t id) = Ret (OVal (value_of (seen ops) t id)).
Proof.
  intros L. destruct (reached ops L) as [H A]. rewrite (ag_val _ _ A). unfold answer. simpl.
  by rewrite (fmapM_eq OVal _ _ _ _ (read_spec _ _ t id H)).
Qed.

(** For [create_entities] no restriction is needed: its ids are new. *)
Theorem C18_new_entities_bare ops n lo hi id t : rules ops ->
  answer ops (CreateEntities n) = Ret (ORange lo hi) -> lo <= id < hi ->
  answer (ops ++ [CreateEntities n]) (ReadComp t id) = Ret (OVal None).
Proof.
  intros L E Hid. assert (rules (ops ++ [CreateEntities n])) as L' by (by apply rules_snoc).
  rewrite read_answer by done. do 2 f_equal. rewrite seen_snoc, value_snoc. simpl.
  apply unhanded_no_components; [done|]. destruct (C10_create_entities ops n L) as (E' & Hf & _).
  rewrite E in E'. injection E' as -> ->. by destruct (Hf id Hid).
Qed.
Theorem C18_new_entity_bare ops : rules ops -> attach_to_live ops ->
  forall id t, answer ops CreateEntity = Ret (OId id) ->
     answer (ops ++ [CreateEntity]) (ReadComp t id) = Ret (OVal None).
Proof.
  intros L HA id t E. assert (rules (ops ++ [CreateEntity])) as L' by (by apply rules_snoc).
  rewrite read_answer by done. do 2 f_equal. rewrite seen_snoc, value_snoc. simpl.
  apply dead_no_components; [done..|]. destruct (C08_create_fresh ops L) as (i & E' & _ & Hn & _).
  rewrite E in E'. by injection E' as ->.
Qed.

(** a check of [attach_to_live] for concrete histories *)
Definition attach_liveb ops : bool :=
  forallb (fun k => match ops !! k with
    | Some (Attach _ id _) => bool_decide (id ∈ alive (seen (take k ops)))
    | Some (BatchAttach lo hi _ _) =>
        forallb (fun id => bool_decide (id ∈ alive (seen (take k ops)))) (seq lo (hi - lo))
    | _ => true
    end) (seq 0 (length ops)).
Lemma attach_liveb_ok ops : attach_liveb ops = true -> attach_to_live ops.
Proof.
  intros H pre o post E. unfold attach_liveb in H. rewrite forallb_forall in H.
  specialize (H (length pre)). rewrite E in H. rewrite app_length in H. simpl in H.
  rewrite list_lookup_middle, take_app in H by done.
  assert (In (length pre) (seq 0 (length pre + S (length post)))) as Hin by (apply in_seq; lia).
  specialize (H Hin). destruct o; try done.
  - by apply bool_decide_eq_true in H.
  - rewrite forallb_forall in H. intros id Hid. eapply bool_decide_eq_true, H, in_seq. lia.
Qed.
End c18.

(** ** Concrete cases meeting the hypotheses *)
Example C08_case : rules sample /\ answer sample CreateEntity = Ret (OId 1) /\ 1 ∉ alive (seen sample).
Proof. split; [apply sample_rules|]. split; [by vm_compute|]. by_compute. Qed.
Example C09_case : rules (sample ++ [RemoveEntity 4 [1; 2]]) /\
  waiting (seen (sample ++ [RemoveEntity 4 [1; 2]])) = [4; 1] /\
  elements (alive (seen (sample ++ [RemoveEntity 4 [1; 2]]))) ≡ₚ [2; 3; 5].
Proof. split; [check_rules|]. split; [by vm_compute|]. by_compute. Qed.
Example C10_case : rules sample /\ answer sample (CreateEntities 3) = Ret (ORange 6 9).
Proof. split; [apply sample_rules|by vm_compute]. Qed.
Example C11_case : let ops : list (op nat) :=
    [CreateEntity; CreateEntity; RemoveEntity 1 []; CreateEntity; CreateEntity; RemoveEntity 2 []; RemoveEntity 3 [];
     CreateEntity] in
  rules ops /\ (forall n, CreateEntities n ∉ ops) /\ max_id (handed (seen ops)) = 3.
Proof.
  split; [check_rules|]. split; [|by vm_compute]. intros n. rewrite !elem_of_cons, elem_of_nil. naive_solver.
Qed.
Example C12_case : rules sample /\ 3 ∈ alive (seen sample) /\ 4 ∈ alive (seen sample).
Proof. split; [apply sample_rules|]. split; by_compute. Qed.
Example C13_case : let ops := sample ++ [RemoveEntity 4 [1; 2]; RemoveEntity 5 [1; 2]] in
  rules ops /\ waiting (seen ops) = [5; 4; 1] /\ answer ops (Exist 5) = Ret (OBool false) /\
  answer ops (Exist 4) = Ret (OBool false).
Proof. split; [check_rules|]. by vm_compute. Qed.
Example C15_case : let ops := sample ++ [RemoveEntity 4 [1; 2]; RemoveEntity 5 [1; 2]] in
  rules ops /\ 5 ∉ alive (seen ops) /\ last (waiting (seen ops)) <> Some 5.
Proof. split; [check_rules|]. split; [by_compute|by vm_compute]. Qed.
Example C18_case : rules sample /\ attach_to_live sample /\ answer sample CreateEntity = Ret (OId 1) /\
  value_of (seen (take 16 sample)) 1 1 = Some 11.
Proof. split; [apply sample_rules|]. split; [apply attach_liveb_ok; by vm_compute|]. by vm_compute. Qed.

Example C18_entities_case : let ops := [Register 1; CreateEntity; RemoveEntity 1 [1]; Attach 1 1 99; Attach 1 1 98] : list (op nat) in
  rules ops /\ ~ attach_to_live ops /\ answer ops (CreateEntities 2) = Ret (ORange 2 4).
Proof.
  cbn zeta. split; [check_rules|]. split; [|by vm_compute]. intros H. specialize (H [Register 1; CreateEntity; RemoveEntity 1 [1]] (Attach 1 1 99) [Attach 1 1 98] eq_refl). revert H. by_compute.
Qed.

(** ** What the code does not satisfy *)
(** C13 is false: exist says true of a removed id. *)
Theorem C13_exist_removed_refuted : exists (ops : list (op nat)) id,
  rules ops /\ id ∈ waiting (seen ops) /\ id ∉ alive (seen ops) /\ answer ops (Exist id) = Ret (OBool true).
Proof.
  exists [CreateEntity; CreateEntity; RemoveEntity 1 []], 1.
  split; [check_rules|]. split; [by_compute|].
  split; [by_compute|by vm_compute].
Qed.
(** In fact it is wrong about some id whenever any removed id is waiting. *)
Theorem C13_exist_always_wrong_about_one {V} (ops : list (op V)) : rules ops -> waiting (seen ops) <> [] ->
  exists id, id ∉ alive (seen ops) /\ answer ops (Exist id) = Ret (OBool true).
Proof.
  intros L Hw. destruct (last (waiting (seen ops))) as [id|] eqn:E.
  - exists id. assert (id ∈ waiting (seen ops)) as Hin by (by apply last_Some_elem_of in E).
    split; [by apply C09_waiting_exact in Hin as [_ ?]|]. rewrite (C13_exist_removed_partial ops id L Hin).
    by rewrite bool_decide_eq_true_2.
  - by apply last_None in E.
Qed.
(** C14 is false: exist panics. *)
Theorem C14_exist_total_refuted : exists (ops : list (op nat)) id,
  rules ops /\ 1 <= id /\ answer ops (Exist id) = Panic.
Proof. exists [CreateEntity; CreateEntity], 3. split; [check_rules|]. split; [lia|by vm_compute]. Qed.
(** C15 is false: after removing entity 2 twice, entity 1 and 3 being alive, the
    second removal is accepted, and the next two create_entity calls return
    the same id. *)
Theorem C15_remove_dead_refuted : exists (ops : list (op nat)) id ord,
  rules ops /\ id ∉ alive (seen ops) /\ ord = [1] /\
  answer ops (RemoveEntity id ord) = Ret OUnit /\
  let ops' := ops ++ [RemoveEntity id ord] in
  answer ops' CreateEntity = Ret (OId id) /\
  answer (ops' ++ [CreateEntity]) (Exist id) = Ret (OBool true) /\
  answer (ops' ++ [CreateEntity]) CreateEntity = Ret (OId id).
Proof.
  exists [Register 1; CreateEntities 3; Attach 1 1 11; Attach 1 2 12; Attach 1 3 13; RemoveEntity 2 [1]], 2, [1].
  split; [check_rules|]. split; [by_compute|]. by vm_compute.
Qed.
(** C18 without [attach_to_live] is false: the removed id 1 takes a component,
    and the next create_entity returns an entity that has it. *)
Theorem C18_new_entity_bare_refuted : exists (ops : list (op nat)) id t v,
  rules ops /\ answer ops CreateEntity = Ret (OId id) /\
  answer (ops ++ [CreateEntity]) (ReadComp t id) = Ret (OVal (Some v)).
Proof.
  exists [Register 7; CreateEntity; RemoveEntity 1 [7]; Attach 7 1 99], 1, 7, 99.
  split; [check_rules|]. by vm_compute.
Qed.

(** C33: which histories never reach undefined behaviour. *)
From stdpp Require Import prelude list gmap.
From Verif Require Import Base Api ModelSparse ModelEntity ModelGroup ModelWorld ModelQuery ModelStep
  Spec History Rules Samples ProofSparse ProofWorld ProofMain ProofHistory PropEntity PropComp PropQuery PropGroup ProofWf.

Section safe.
Context {V : Type}.
Implicit Types (ops : list (op V)).

(** No batch attach ever hits an entity that has the type already (C07). *)
Definition batches_fresh ops : Prop :=
  forall ops1 lo hi t vs ops2 id, ops = ops1 ++ BatchAttach lo hi t vs :: ops2 -> lo <= id < hi ->
    answer ops1 (StoreExist t id) <> Ret (OBoolOpt (Some true)).
(** The queries do not iterate groups. *)
Definition plain_call (o : op V) : bool :=
  match o with Query q | QueryMut q _ => q_plain q | _ => true end.

Lemma fresh_snoc ops o : batches_fresh (ops ++ [o]) -> batches_fresh ops.
Proof. intros H ops1 lo hi t vs ops2 id E. apply (H ops1 lo hi t vs (ops2 ++ [o])). by rewrite E, <- app_assoc. Qed.
Lemma fresh_tame ops o : batches_fresh (ops ++ [o]) -> plain_call o = true -> good (after ops) -> tame (after ops) o.
Proof.
  intros H Hp G. destruct o; try done. intros id st Hid Hst.
  specialize (H ops lo hi t vs [] id eq_refl Hid). destruct (ss_exist (st_set st) id) eqn:E; [|done]. exfalso. apply H.
  unfold answer. cbn [step]. unfold fmapM, via_storage, bind, get, lift, components_read, ret. rewrite Hst.
  destruct (gd_st _ G t st Hst) as [-> _]. rewrite Nat.eqb_refl. cbn [fst]. by rewrite E.
Qed.
Lemma tame_good ops : batches_fresh ops -> Forall (fun o => plain_call o = true) ops ->
  good (after ops) /\ Forall (fun ev => ev.2 <> UB) (seen ops).
Proof.
  induction ops as [|o ops IH] using rev_ind; intros Hf Hp.
  { split; [apply good_new|constructor]. }
  apply Forall_app in Hp as [Hp Ho]. inversion Ho as [|? ? Ho' _]; subst.
  destruct (IH (fresh_snoc _ _ Hf) Hp) as [G HU]. pose proof (fresh_tame ops o Hf Ho' G) as T.
  destruct (good_step _ _ G T) as [G' N]. split; [by rewrite after_snoc|].
  rewrite seen_snoc. apply Forall_app. split; [done|]. by constructor.
Qed.

(** No call of such a history is undefined behaviour: whatever was called
    before, in whatever order, on live or dead entities, also after panics,
    and whatever groups there are.  Missing from C33: group queries and batch
    attach on entities having the type, for which it is false (below). *)
Theorem C33_no_ub_partial ops : batches_fresh ops -> Forall (fun o => plain_call o = true) ops ->
  forall o r, (o, r) ∈ seen ops -> r <> UB.
Proof.
  intros Hf Hp o r Hin. destruct (tame_good ops Hf Hp) as [_ HU]. rewrite Forall_forall in HU. by apply (HU _ Hin).
Qed.
(** Nor is any use of the iterator of a plain query. *)
Theorem C33_iterator_no_ub_partial ops q cs : batches_fresh ops -> Forall (fun o => plain_call o = true) ops ->
  q_plain q = true -> use ops q cs <> UB.
Proof. intros Hf Hp Hq. destruct (tame_good ops Hf Hp) as [G _]. by apply use_query_noub. Qed.

(** Nor any call of a history keeping to the rules of use, group queries
    included; and no use of the iterator of a query over groups that are as
    they should be. *)
Theorem C33_rules_partial ops : rules ops ->
  (forall o r, (o, r) ∈ seen ops -> r <> UB) /\
  (forall q cs, q_fine (seen ops) q -> use ops q cs <> UB).
Proof.
  intros L. split.
  - induction ops as [|o ops IH] using rev_ind; [by intros ? ? ?%elem_of_nil|].
    pose proof (answer_ok ops o L) as A. apply rules_snoc in L as [L Lo]. intros o' r. rewrite seen_snoc, elem_of_app.
    intros [H|H]; [by apply (IH L o')|]. apply elem_of_list_singleton in H as [= -> ->].
    intros E. rewrite E in A. clear -A Lo. destruct o; cbn [aout] in A;
      repeat case_decide; repeat case_match; try done; destruct A as [? [? _]]; done.
  - intros q cs F. destruct (C24_iterator_calls_partial ops q L F) as (l & _ & _ & E). by rewrite E.
Qed.
End safe.

(** ** Refutation *)

(** Safe code reaching undefined behaviour.  (1) batch attaching twice makes
    the dense array inconsistent; a detach then leaves a dangling index and a
    read goes out of bounds: every call up to then returned.  (2) a non-owning
    group query, within the rules of use but for the query itself. (3) groups
    created in the wrong order. *)
Definition h33 : list (op nat) :=
  [ Register 1; Register 2; CreateEntities 2; BatchAttach 1 3 1 [1; 2]; BatchAttach 1 3 1 [3; 4];
    Attach 2 2 7; MakeGroup KFull 1 2; Detach 1 2 ].
Theorem C33_no_ub_refuted :
  (Forall (fun ev => exists r, ev.2 = Ret r) (seen h33) /\ answer h33 (ReadComp 1 1) = UB) /\
  (rules (h30 ++ [Detach 1 3]) /\ answer (h30 ++ [Detach 1 3]) (Query (QGroup KNon false false 1 2)) = UB) /\
  (Forall (fun ev => exists r, ev.2 = Ret r) (seen (h31 (MakeGroup KFull 1 2) (MakeGroup KPart 3 1))) /\
   answer (h31 (MakeGroup KFull 1 2) (MakeGroup KPart 3 1)) (Query (QGroup KPart false false 3 1)) = UB).
Proof.
  split; [|split].
  - split; [|vm_compute; reflexivity]. vm_compute. repeat (constructor; [eexists; reflexivity|]). constructor.
  - split; [check_rules|vm_compute; reflexivity].
  - split; [|vm_compute; reflexivity]. vm_compute. repeat (constructor; [eexists; reflexivity|]). constructor.
Qed.

(** ** A case: a history breaking most rules of use (a removed id used again, a
    failed make_group, groups in the wrong order), with panics, and plain
    queries after it. *)
Definition h33ok : list (op nat) :=
  [ Register 1; Register 2; Register 3; CreateEntities 3; BatchAttach 1 4 1 [1; 2; 3]; Attach 2 1 4; Attach 3 1 5;
    MakeGroup KFull 1 2; MakeGroup KPart 3 1; MakeGroup KNon 5 6; RemoveEntity 1 [1; 2; 3]; Attach 1 1 9; Detach 2 3;
    Exist 100; ReadComp 1 1; Query (Q2 (QRef false 1) (QRef true 3)) ].
Fixpoint batches_freshb (pre ops : list (op nat)) : bool :=
  match ops with
  | [] => true
  | o :: ops' =>
      match o with
      | BatchAttach lo hi t vs =>
          forallb (fun id => match answer pre (StoreExist t id) with Ret (OBoolOpt (Some true)) => false | _ => true end) (seq lo (hi - lo))
      | _ => true
      end && batches_freshb (pre ++ [o]) ops'
  end.
Lemma batches_freshb_ok ops : batches_freshb [] ops = true -> batches_fresh ops.
Proof.
  intros H ops1 lo hi t vs ops2 id E Hid.
  assert (forall ops1 pre ops, batches_freshb pre ops = true -> ops = ops1 ++ BatchAttach lo hi t vs :: ops2 ->
    answer (pre ++ ops1) (StoreExist t id) <> Ret (OBoolOpt (Some true))) as K.
  { clear -Hid. induction ops1 as [|o ops1 IH]; intros pre ops H ->; simpl in H; apply andb_true_iff in H as [H1 H2].
    - rewrite app_nil_r. rewrite forallb_forall in H1. specialize (H1 id). rewrite in_seq in H1.
      intros E. rewrite E in H1. discriminate H1. lia.
    - specialize (IH _ _ H2 eq_refl). by rewrite <- app_assoc in IH. }
  by apply (K ops1 [] ops).
Qed.
Example C33_case : batches_fresh h33ok /\ Forall (fun o => plain_call o = true) h33ok /\
  In Panic (map snd (seen h33ok)) /\ length (seen h33ok) = 16.
Proof.
  split; [apply batches_freshb_ok; vm_compute; reflexivity|]. split; [by repeat constructor|].
  split; [vm_compute; tauto|vm_compute; reflexivity].
Qed.
Example C33_case_rules : rules sample4 /\ answer sample4 (Query (QGroup KFull false true 1 4)) <> UB.
Proof. split; [check_rules|]. vm_compute. discriminate. Qed.

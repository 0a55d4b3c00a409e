(** Continuations: what a batch attach does in every case (C07), and cases for
    C07, C14, C19, C20, C34, C35. *)
From stdpp Require Import prelude list gmap.
From Verif Require Import Base Api ModelSparse ModelEntity ModelGroup ModelWorld ModelQuery ModelStep
  Spec History Rules Samples ProofSparse ProofEntity ProofGroup ProofWorld ProofOps ProofOps2 ProofRemove ProofRemove2
  ProofQuery ProofQuery2 ProofQuery3 ProofQueryMut ProofMain ProofHistory PropEntity PropComp PropWorld PropGroup.

Section batch.
Context {V : Type}.
Implicit Types (ops : list (op V)) (t id : nat) (v : V).

Lemma batch_slot n : forall lo ind st id,
  mjoin (batch_indices ind st 0 (seq lo n) !! id) =
  if decide (lo <= id < lo + n) then Some (st + (id - lo) + 1) else mjoin (ind !! id).
Proof.
  induction n as [|n IH]; intros lo ind st id.
  - simpl. rewrite decide_False by lia. done.
  - cbn [seq batch_indices]. rewrite batch_start, IH. destruct (decide (id = lo)) as [->|Hne].
    + rewrite decide_False by lia. rewrite decide_True by lia. rewrite list_lookup_insert.
      * simpl. f_equal. lia.
      * unfold grow. rewrite app_length, replicate_length. lia.
    + destruct (decide (S lo <= id < S lo + n)).
      * rewrite decide_True by lia. f_equal. lia.
      * rewrite decide_False by lia. rewrite list_lookup_insert_ne by done. rewrite grow_lookup.
        destruct (ind !! id); [done|]. by case_match.
Qed.

Lemma get_Some (s : sset V) id v : ss_get s id = Ret (Some v) ->
  ss_exist s id = true /\ exists i, ss_get_unchecked_loc s id = Ret i /\ sdata s !! i = Some v.
Proof.
  unfold ss_get, ss_exist, ss_get_unchecked_loc. destruct (indices s !! id) as [[k|]|]; try done.
  destruct (sdata s !! (k - 1)) eqn:E; [|done]. intros [= ->]. split; [done|].
  exists (k - 1). rewrite (proj2 (Nat.ltb_lt _ _)) by (by eapply lookup_lt_Some). done.
Qed.
Lemma get_None (s : sset V) id : ss_get s id = Ret None -> ss_exist s id = false.
Proof.
  unfold ss_get, ss_exist. destruct (indices s !! id) as [[k|]|]; try done.
  destruct (sdata s !! (k - 1)); done.
Qed.

(** What a batch attach does, whether or not the entities have the type
    already: it succeeds; every entity of the range then reads its new value
    and all others what they read before; but nothing is overwritten in
    place: the new values are appended to the storage, whose [count] and
    [data] grow by the whole batch. *)
Theorem C07_batch_exact ops lo hi t vs es ds : rules ops -> t ∈ types_of (seen ops) ->
  length vs = hi - lo -> layout ops t es ds ->
  answer ops (BatchAttach lo hi t vs) = Ret OUnit /\
  let ops' := ops ++ [BatchAttach lo hi t vs] in
  answer ops' (StoreData t) = Ret (OData (Some (ds ++ vs))) /\
  answer ops' (StoreCount t) = Ret (ONatOpt (Some (length ds + (hi - lo)))) /\
  forall id, let val := if decide (lo <= id < hi) then vs !! (id - lo) else value_of (seen ops) t id in
    answer ops' (StoreGet t id) = Ret (OValOpt (Some val)) /\
    answer ops' (ReadComp t id) = Ret (OVal val).
Proof.
  intros L Ht Hlen Hlay. destruct (reg_storage ops t L Ht) as (s & m & Hs & Hm & Rs).
  pose proof (rep_wf _ _ _ Rs) as W.
  destruct (layout_det _ _ _ _ _ _ Hlay (layout_exact ops t s L Hs W)) as [-> ->].
  split; [by apply C06_batch_answer|]. intros ops'.
  set (s' := SS (batch_indices (indices s) (length (entities s)) 0 (seq lo (hi - lo)))
               (entities s ++ seq lo (hi - lo)) (sdata s ++ vs)).
  assert (w_comps (after ops') !! t = Some (St t s')) as Hs'.
  { unfold ops'. rewrite after_snoc. cbn [step]. unfold fmapM, entities_attach, bind.
    rewrite (proj2 (Nat.eqb_eq _ _) Hlen). cbn [assert ret]. unfold storage_mut, ret. rewrite Hs.
    cbn [st_ty st_set]. rewrite Nat.eqb_refl. unfold ss_add_batch, bind, get, put, assert, ret. rewrite seq_length.
    rewrite (proj2 (Nat.eqb_eq (hi - lo) (length vs))) by done. simpl. by rewrite lookup_insert. }
  assert (forall id, ss_get s' id = Ret (if decide (lo <= id < hi) then vs !! (id - lo) else value_of (seen ops) t id)) as G.
  { intros id. destruct (reached ops L) as [H A].
    pose proof (batch_slot (hi - lo) lo (indices s) (length (entities s)) id) as B.
    unfold ss_get, s'. cbn [indices sdata]. destruct (decide (lo <= id < hi)) as [Hin|Hout].
    - rewrite decide_True in B by lia. destruct (batch_indices _ _ _ _ !! id) as [[k|]|]; try done. simpl in B.
      injection B as ->. rewrite (wf_len _ W). rewrite lookup_app_r by lia.
      replace (length (sdata s) + (id - lo) + 1 - 1 - length (sdata s)) with (id - lo) by lia.
      destruct (vs !! (id - lo)) eqn:E; [done|]. apply lookup_ge_None in E. lia.
    - rewrite decide_False in B by lia.
      assert (value_of (seen ops) t id = m !! id) as ->.
      { rewrite (ag_val _ _ A). unfold comp. by rewrite Hm. }
      pose proof (get_rep id _ _ _ Rs) as Gr. unfold ss_get in Gr.
      destruct (batch_indices _ _ _ _ !! id) as [[k|]|]; simpl in B.
      + destruct (indices s !! id) as [[k'|]|]; try done. simpl in B. injection B as ->.
        destruct (sdata s !! (k' - 1)) as [x|] eqn:Ex; [|done]. erewrite lookup_app_l_Some by exact Ex. done.
      + destruct (indices s !! id) as [[k'|]|]; done.
      + destruct (indices s !! id) as [[k'|]|]; done. }
  unfold answer. cbn [step]. unfold fmapM, via_storage, bind, get, lift, components_read. rewrite Hs'. cbn [st_ty st_set].
  rewrite Nat.eqb_refl. unfold ret, ss_len, s'. cbn [sdata entities fst]. split; [done|]. split.
  { rewrite app_length, seq_length, (wf_len _ W). done. }
  intros id. fold s'. rewrite G. split; [done|].
  specialize (G id). destruct (if decide _ then _ else _) as [v|]; clearbody s'; unfold entity_component_read, bind, get, lift, components_read; rewrite Hs'; cbn [st_ty st_set]; rewrite Nat.eqb_refl.
  - destruct (get_Some _ _ _ G) as (Ex & i & Ei & Ev). rewrite Ex, Ei, Ev. done.
  - by rewrite (get_None _ _ G).
Qed.
End batch.

(** cases *)
Local Ltac vm := vm_compute; reflexivity.
Ltac vms := repeat (split; [vm|]); vm.

(** two of the three entities of the batch have the type *)
Definition twice : list (op nat) :=
  [ Register 1; CreateEntities 2; BatchAttach 1 3 1 [11; 12]; CreateEntity; Attach 1 3 13 ].
Example C07_exact_case : rules twice /\ 1 ∈ types_of (seen twice) /\ layout twice 1 [1; 2; 3] [11; 12; 13] /\
  value_of (seen twice) 1 2 = Some 12 /\
  let ops' := twice ++ [BatchAttach 2 4 1 [22; 23]] in
  answer ops' (StoreData 1) = Ret (OData (Some [11; 12; 13; 22; 23])) /\
  answer ops' (ReadComp 1 1) = Ret (OVal (Some 11)) /\
  answer ops' (ReadComp 1 2) = Ret (OVal (Some 22)) /\
  answer ops' (ReadComp 1 3) = Ret (OVal (Some 23)).
Proof.
  split; [check_rules|]. split; [by_compute|]. split; [|vms]. split; [done|]. vms.
Qed.

(** ids 1..5 were handed out; 1 waits; 3 was recycled *)
Example C14_case : rules sample /\ 1 ∈ handed (seen sample) /\ 1 ∉ alive (seen sample) /\ 6 ∉ handed (seen sample) /\
  answer sample (Exist 3) = Ret (OBool true) /\ answer sample (Exist 6) = Panic.
Proof. split; [exact sample_rules|]. split; [by_compute|]. split; [by_compute|]. split; [by_compute|]. vms. Qed.

(** a history with calls that panic and calls that are against the rules *)
Definition rough : list (op nat) :=
  [ Register 1; Register 1; RegisterRes 1 5; CreateEntities 2; BatchAttach 1 3 1 [1; 2]; BatchAttach 1 3 1 [3; 4];
    Attach 2 1 9; MakeGroup KFull 1 2; Register 2; RegisterRes 1 6; WriteRes 2 7; RemoveEntity 7 [1; 2];
    Attach 2 1 9; RegisterRes 2 8 ].
Example C19_case : size (alive (seen rough)) = 2 /\
  (seen rough).*2 !! 1 = Some Panic /\ (seen rough).*2 !! 6 = Some Panic /\ (seen rough).*2 !! 7 = Some Panic /\
  answer rough (StoreCount 1) = Ret (ONatOpt (Some 4)) /\ answer rough (StoreCount 2) = Ret (ONatOpt (Some 1)) /\
  answer rough (StoreCount 3) = Ret (ONatOpt None).
Proof. vms. Qed.
Example C20_case : 3 ∉ types_of (seen rough) /\ 1 ∈ types_of (seen rough) /\
  answer rough (HasRegistered 2) = Ret (OBool true) /\ answer rough (HasRegistered 3) = Ret (OBool false) /\
  answer rough (Register 3) = Ret OUnit /\ answer rough (Register 2) = Panic.
Proof. split; [by_compute|]. split; [by_compute|]. vms. Qed.
Example C35_case : res_of (seen rough) 1 = Some 6 /\ res_of (seen rough) 2 = Some 8 /\ res_of (seen rough) 3 = None /\
  (seen rough).*2 !! 10 = Some (Ret (OBool false)) /\
  answer rough (ReadRes 1) = Ret (OVal (Some 6)) /\ answer rough (WriteRes 3 1) = Ret (OBool false) /\
  answer (rough ++ [WriteRes 2 9]) (ReadRes 1) = Ret (OVal (Some 6)) /\
  answer (rough ++ [WriteRes 2 9]) (ReadRes 2) = Ret (OVal (Some 9)).
Proof. vms. Qed.
(** a refused group; a group of a type that is registered only later *)
Example C34_case : g_clash (groups_in (after sample)) (KPart, 2, 9) /\
  ~ g_clash (groups_in (after sample)) (KNon, 2, 9) /\ 9 ∉ types_of (seen sample) /\
  answer sample (MakeGroup KPart 2 9) = Panic /\ answer sample (MakeGroup KNon 2 9) = Panic /\
  answer sample (RemoveEntity 2 [1; 2]) = Ret OUnit /\
  answer (sample ++ [MakeGroup KPart 2 9]) (RemoveEntity 2 [1; 2]) = Ret OUnit /\
  answer (sample ++ [MakeGroup KNon 2 9]) (RemoveEntity 2 [1; 2]) = Panic /\
  answer (sample ++ [MakeGroup KNon 2 9; Register 9]) (RemoveEntity 2 [1; 9; 2]) = Ret OUnit.
Proof.
  assert (groups_in (after sample) = [(KFull, 1, 2)]) as E by vm. rewrite E. split; [|split].
  - right. exists (KFull, 1, 2), 2. split; [by left|]. simpl. auto.
  - intros [H|(g & t & H & O & O')].
    + by apply elem_of_list_singleton in H.
    + exact O'.
  - split; [by_compute|]. vms.
Qed.

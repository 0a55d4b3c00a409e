(** C40: threads that change grouped types without getting in each other's
    way.  The discipline is [minds] (SpecApart.v): entities belong to a thread
    (given to it at the start, or made by it) or to everybody; a thread
    attaches grouped types to its own entities and to everybody's, detaches
    them from its own only, and removes only its own; there are no batch
    attaches.  Everything else is allowed ([still] restricts the overwriting
    of values; the theorem holds whatever it is).
    [shows w t id]: what reading component [t] of [id] gives (SpecConc.v);
    [left_out]: left out of the group by a batch attach, before the threads
    started (C32). *)
From stdpp Require Import prelude list gmap.
From Verif Require Import Base Api ModelSparse ModelEntity ModelGroup ModelWorld ModelQuery ModelStep ModelConc SpecConc
  Spec History Rules Samples SpecApart ProofSparse ProofEntity ProofWorld ProofOps ProofRemove ProofWf ProofMain ProofHistory ProofHistory2 PropEntity
  ProofConc ProofConc4 ProofConc8 ProofConc10 ProofApart ProofApart2 ProofApart3 PropConc2.

Section apart.
Context {V : Type}.
Implicit Types (ops : list (op V)) (cs : list (client V)) (c : conf V) (own : nat -> gset nat) (shared kept : nat -> bool).

Lemma threads_len w cs sched c : run sched (start w cs) = Some c -> length (cf_threads c) = length cs.
Proof.
  assert (length (cf_threads (start w cs)) = length cs) as E by (simpl; apply map_length). rewrite <- E. clear E. generalize (start w cs).
  induction sched as [|i s IH]; intros c0; simpl; [by intros [= <-]|]. destruct (cstep i c0) as [c1|] eqn:Ec; [|done]. intros Hr. rewrite (IH _ Hr).
  unfold cstep in Ec. destruct (cf_threads c0 !! i); [|done]. destruct (tstep _ _ _) as [[? ?]|]; [|done]. injection Ec as <-. simpl. apply insert_length.
Qed.
(** C40, for such threads.  At every moment of every run a query of an owning
    group of the shared world would return, list no entity twice, and show
    each of its items with the entity's own two components; and it would list
    every entity that has both, unless the entity was left out before the
    threads started, or some thread has not finished (its own one if it is to
    be kept and was given to a thread).  So when all have finished, the group
    is exact.

    Missing from C40: threads that keep no discipline, for which it is false
    (C40_race_refuted, C40_mixed_refuted). *)
Theorem C40_apart_partial ops shared kept still own cs c k ma mb a b : rules ops ->
  divided shared kept (alive (seen ops)) own ->
  (forall n cl, cs !! n = Some cl -> minds (after ops) shared kept still (own n) knows_nothing [] cl) ->
  reaches (after ops) cs c ->
  (k, a, b) ∈ groups_of (seen ops) -> k <> KNon ->
  exists l, step (Query (QGroup k ma mb a b)) (cf_world c) = (Ret (OItems l), cf_world c) /\ NoDup l.*1 /\
    (forall id x, (id, x) ∈ l -> both_vals (shows (cf_world c)) a b id = Some x) /\
    (forall id x, both_vals (shows (cf_world c)) a b id = Some x -> (id, x) ∈ l \/ left_out (seen ops) k a b id = true \/
       exists n, n < length cs /\ ~ finished c n /\ forall m, kept id = true -> id ∈ own m -> m = n).
Proof.
  intros L Hd Hcs [sched Hr] Hg Hk. assert (forall e, shared e = true -> kept e = true) as Hsk by apply Hd.
  pose proof (AI_run _ _ _ _ _ _ Hsk own _ _ _ (AI_start ops shared kept still own cs L Hd Hcs) Hr) as [Hc (γ & aw & Hw & Hkp & Hn & Hp)].
  destruct (reached ops L) as [HR A]. pose proof (wi_R _ _ _ _ _ _ _ _ _ Hw) as HRc.
  rewrite (ag_grp _ _ A) in Hg. apply elem_of_list_fmap in Hg as (g & E & Hg). unfold gkey in E. injection E as -> -> ->.
  apply elem_of_list_lookup in Hg as [i Hi]. pose proof (R_head _ _ i g HR Hi) as Hh.
  pose proof (ci_shape _ _ _ _ Hc) as Sh. rewrite (sh_groups _ _ Sh i) in Hh.
  assert (exists ag, a_groups aw !! i = Some ag) as [ag Hag].
  { apply lookup_lt_is_Some_2. rewrite <- (Forall2_length _ _ _ (R_gr _ _ HRc)). unfold group_head in Hh. destruct (w_groups (cf_world c) !! i) eqn:E; [|done]. by eapply lookup_lt_Some. }
  pose proof (R_head _ _ i ag HRc Hag) as Hh'. rewrite Hh in Hh'. injection Hh' as Ek Ea Eb. rewrite Ek, Ea, Eb in *.
  destruct (owning_query _ _ i ag ma mb HRc Hag Hk) as (l & E & N & X). exists l. split; [done|]. split; [done|]. split.
  { intros id x Hx. by apply X in Hx as [_ Hx]. }
  intros id x Hx. destruct (decide (id ∈ ag_mem ag)) as [Hm|Hm]; [left; apply X; by split|]. right.
  destruct (wi_all _ _ _ _ _ _ _ _ _ Hw i ag id Hag) as [Hl|[n Hown]]; [|exact Hm| |].
  - apply both_has_iff. unfold both_vals in Hx. rewrite !(shows_comp _ _ _ _ HRc) in Hx. unfold comp in Hx. unfold hasc.
    destruct (a_comps aw !! ag_a ag ≫= _) as [va|]; [|done]. destruct (a_comps aw !! ag_b ag ≫= _) as [vb|]; [|done]. eauto.
  - left. destruct Hl as (k' & a' & b' & Hh0 & Hl). rewrite (sh_groups _ _ Sh i), Hh in Hh0. by injection Hh0 as <- <- <-.
  - right. exists n. assert (is_Some (cf_threads c !! n)) as [th Hth].
    { destruct (cf_threads c !! n) eqn:E'; [eauto|]. apply Hn in E'. by apply idle_owes in Hown. }
    split.
    { apply lookup_lt_Some in Hth. by rewrite (threads_len _ _ _ _ Hr) in Hth. }
    split.
    + intros (th' & Hth' & Hpr & _). assert (th' = th) as -> by congruence. pose proof (Hp n th Hth) as Hpn. rewrite Hpr in Hpn. by apply idle_owes in Hown.
    + intros m Hkid Hm0. pose proof (Hkp m id Hm0 Hkid) as Hmine. pose proof (wi_ghost _ _ _ _ _ _ _ _ _ Hw n) as (_ & _ & Hgw). unfold owes in Hown.
      pose proof (wi_sh _ _ _ _ _ _ _ _ _ Hw m id Hmine) as Hns.
      destruct (g_do (γ n)) as [|t e todo|t e gone|e G T]; simpl in *; [done|..].
      * destruct Hown as [-> Hin]. destruct Hgw as [->|[?|?]]; [by apply elem_of_nil in Hin|by eapply wi_disj|congruence].
      * destruct Hown as [-> Hin]. destruct Hgw as [? _]. by eapply wi_disj.
      * subst e. destruct Hgw as (_ & ? & _). congruence.
Qed.
End apart.

(** Five threads on a world with the group (1, 2): the first detaches type 1
    from its entity 1 and attaches it again, and attaches it to entity 3, which
    is everybody's; the second gives its entity 2 both types and attaches type
    2 to entity 3; the third makes a new entity, gives it both types by its
    handle, and removes it; the fourth makes one and gives it both types; the
    fifth makes two, attaches type 1 to them as a batch, and type 2 to the
    first of them. *)
Definition apart_ops : list (op nat) :=
  [Register 1; Register 2; CreateEntity; CreateEntity; CreateEntity; Attach 1 1 10; Attach 2 1 20; MakeGroup KFull 1 2].
Definition apart_shared (id : nat) : bool := id =? 3.
Definition apart_kept (id : nat) : bool := (id =? 1) || (id =? 3).
Definition apart_own (n : nat) : gset nat := match n with 0 => {[1]} | 1 => {[2]} | _ => ∅ end.
Definition apart_cs : list (client nat) :=
  [ Call (Detach 1 1) (fun _ => Call (Attach 1 3 13) (fun _ => Call (Attach 1 1 11) (fun _ => Done)));
    Call (Attach 1 2 12) (fun _ => Call (Attach 2 3 23) (fun _ => Call (Attach 2 2 22) (fun _ => Done)));
    NewEntity (fun r => match r with Ret id =>
      HAttach 0 1 14 (fun r => match r with Ret _ => HAttach 0 2 24 (fun _ => DropObj 0
        (if apart_kept id then Done else Call (RemoveEntity id [1; 2]) (fun _ => Done))) | _ => Done end) | _ => Done end);
    Call CreateEntity (fun r => match r with Ret (OId id) => Call (Attach 2 id 25) (fun _ => Call (Attach 1 id 15) (fun _ => Done)) | _ => Done end);
    NewEntities 2 (fun r => match r with Ret (lo, hi) =>
      if 3 <? lo then HBatch 0 1 [16; 17] (fun r => match r with Ret _ => Call (Attach 2 lo 26) (fun _ => DropObj 0 Done) | _ => Done end) else Done | _ => Done end) ].
Lemma apart_head i k a b : group_head i (after apart_ops) = Some (k, a, b) -> i = 0 /\ k = KFull /\ a = 1 /\ b = 2.
Proof.
  intros H. assert (i = 0) as ->. { destruct i; [done|]. vm_compute in H. by destruct i. } vm_compute in H. by injection H as <- <- <-.
Qed.
Lemma apart_reg t : t ∈ [1; 2] <-> has_registered t (after apart_ops) = true.
Proof.
  assert (map_to_list (st_ty <$> w_comps (after apart_ops)) = [(1, 1); (2, 2)]) as E by (vm_compute; reflexivity).
  unfold has_registered. rewrite bool_decide_eq_true. rewrite <- (fmap_is_Some st_ty), <- lookup_fmap. split.
  - intros Ht. assert (exists p, p ∈ [(1, 1); (2, 2)] /\ p.1 = t) as (p & Hp & <-).
    { apply elem_of_cons in Ht as [->|[->|[]%elem_of_nil]%elem_of_cons]; [exists (1, 1)|exists (2, 2)]; split; try done; [left|right; left]. }
    rewrite <- E in Hp. destruct p as [t s]. apply elem_of_map_to_list in Hp. eauto.
  - intros [s Hs]. apply elem_of_map_to_list in Hs. rewrite E in Hs. apply elem_of_cons in Hs as [[= -> _]|[[= -> _]|[]%elem_of_nil]%elem_of_cons]; [left|right; left].
Qed.
Lemma apart_divided : divided apart_shared apart_kept (alive (seen apart_ops)) apart_own.
Proof.
  assert (bool_decide (1 ∈ alive (seen apart_ops)) = true /\ bool_decide (2 ∈ alive (seen apart_ops)) = true) as [H1 H2] by (split; vm_compute; reflexivity).
  apply bool_decide_eq_true in H1, H2.
  assert (forall n id, id ∈ apart_own n -> (n = 0 /\ id = 1) \/ (n = 1 /\ id = 2)) as HO.
  { intros [|[|n]] id; simpl; [intros ?%elem_of_singleton; by left|intros ?%elem_of_singleton; by right|by intros ?%elem_of_empty]. }
  split_and!.
  - intros n id [[-> ->]|[-> ->]]%HO; done.
  - intros n m id [[-> ->]|[-> ->]]%HO [[-> ?]|[-> ?]]%HO; done.
  - intros n id [[-> ->]|[-> ->]]%HO; done.
  - unfold apart_shared, apart_kept. intros id ->. apply orb_true_r.
Qed.
Lemma apart_minds n cl : apart_cs !! n = Some cl -> minds (after apart_ops) apart_shared apart_kept true (apart_own n) knows_nothing [] cl.
Proof.
  pose proof apart_head as Hhead. pose proof apart_reg as Hreg. revert Hhead Hreg. generalize (after apart_ops). intros w Hhead Hreg.
  assert (forall ids mine id, id ∈ ids -> id ∈ gain apart_shared ids mine \/ apart_shared id = true) as HG.
  { intros ids mine id Hin. unfold gain. destruct (apart_shared id) eqn:E; [by right|]. left. apply elem_of_union_r, elem_of_list_to_set, elem_of_list_filter. done. }
  assert (forall id mine, id ∈ gain apart_shared [id] mine \/ apart_shared id = true) as HG1 by (intros; apply HG; left).
  destruct n as [|[|[|[|[|n]]]]]; [..|by destruct n]; intros [= <-]; cbn [minds op_apart own_next]; unfold may_attach, may_detach; cbn [apart_own].
  - split; [left; by apply elem_of_singleton|]. intros r _. split; [by right; left|]. intros _ _. split; [left; by apply elem_of_singleton|]. done.
  - split; [left; by apply elem_of_singleton|]. intros r _. split; [by right; left|]. intros _ _. split; [left; by apply elem_of_singleton|]. done.
  - intros id _ _. cbn. unfold may_attach. split; [destruct (HG1 id ∅); auto|]. intros [[]| | |]; try done. cbn. unfold may_attach. split; [destruct (HG1 id ∅); auto|]. intros r.
    assert (forall bare e, minds w apart_shared apart_kept true (gain apart_shared [id] ∅) bare e (if apart_kept id then Done else Call (RemoveEntity id [1; 2]) (fun _ => Done))) as Hx.
    { intros bare e. destruct (apart_kept id) eqn:Ek; [done|]. cbn [minds op_apart]. split; [|done]. split.
      { destruct (HG1 id ∅) as [?|Hs]; [done|]. unfold apart_shared, apart_kept in *. rewrite Hs, orb_true_r in Ek. done. }
      split; [done|]. split.
      { intros i j t k a b Hij _ (-> & _)%Hhead. lia. }
      split; [|apply Hreg]. apply NoDup_cons. split; [|apply NoDup_singleton]. by intros ?%elem_of_list_singleton. }
    destruct r as [[]| | |]; apply Hx.
  - split; [done|]. intros r (id & -> & _ & _). cbn. unfold may_attach. split; [destruct (HG1 id ∅); auto|]. intros r _. split; [destruct (HG1 id ∅); auto|]. done.
  - intros lo _ _. destruct (3 <? lo) eqn:E3; [|done]. apply Nat.ltb_lt in E3.
    assert (forall id, lo <= id < lo + 2 -> id ∈ gain apart_shared (seq lo 2) ∅) as Hin.
    { intros id Hid. destruct (HG (seq lo 2) ∅ id) as [?|Hs]; [apply elem_of_seq; lia|done|]. unfold apart_shared in Hs. apply Nat.eqb_eq in Hs. lia. }
    cbn [minds lookup list_lookup]. split.
    { intros id Hid. split; [by apply Hin|]. assert (forall t, blank lo (lo + 2) knows_nothing t id = true) as HB.
      { intros t. unfold blank. rewrite orb_true_iff, andb_true_iff, Nat.leb_le, Nat.ltb_lt. left. lia. }
      split; [|split; [apply HB|]].
      - intros [Hs|[Hs _]]; unfold apart_kept, apart_shared in Hs; rewrite ?orb_true_iff, ?Nat.eqb_eq in Hs; lia.
      - intros i k a b (_ & _ & -> & ->)%Hhead _. split; [done|]. split; apply HB. }
    intros [[]| | |]; try done. cbn [minds op_apart]. unfold may_attach. split; [left; apply Hin; lia|]. done.
Qed.
Example C40_apart_case : rules apart_ops /\ divided apart_shared apart_kept (alive (seen apart_ops)) apart_own /\
  (forall n cl, apart_cs !! n = Some cl -> minds (after apart_ops) apart_shared apart_kept true (apart_own n) knows_nothing [] cl) /\
  (KFull, 1, 2) ∈ groups_of (seen apart_ops).
Proof.
  split; [check_rules|]. split; [apply apart_divided|]. split; [apply apart_minds|]. apply elem_of_list_In. vm_compute. by left.
Qed.
(** One of their runs to the end, interleaved; and what the group lists then. *)
Fixpoint robin {V} (n i : nat) (c : conf V) : conf V * list nat :=
  match n with
  | 0 => (c, [])
  | S n' =>
      match find (fun i => negb (stays i c)) (seq i (length (cf_threads c) - i) ++ seq 0 i) with
      | Some i => match cstep i c with Some c' => let '(c2, s) := robin n' (S i) c' in (c2, i :: s) | None => (c, []) end
      | None => (c, [])
      end
  end.
Example C40_apart_run : exists sched, runs sched (start (after apart_ops) apart_cs) = true /\
  take 8 sched = [0; 1; 0; 1; 0; 1; 0; 1] /\
  all_done (at_end sched (start (after apart_ops) apart_cs)) = true /\
  (step (Query (QGroup KFull false false 1 2)) (cf_world (at_end sched (start (after apart_ops) apart_cs)))).1 =
    Ret (OItems [(3, V2 (VLeaf 13) (VLeaf 23)); (1, V2 (VLeaf 11) (VLeaf 20)); (2, V2 (VLeaf 12) (VLeaf 22)); (6, V2 (VLeaf 16) (VLeaf 26)); (5, V2 (VLeaf 15) (VLeaf 25))]).
Proof.
  assert (exists s, s = (robin 1000 0 (start (after apart_ops) apart_cs)).2) as [s E] by by eexists. vm_compute in E.
  exists s. rewrite E. split; [vm_compute; done|]. split; [done|]. split; [vm_compute; done|]. vm_compute; reflexivity.
Qed.

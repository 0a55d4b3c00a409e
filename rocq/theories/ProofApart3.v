(** Runs of threads that keep to [minds] (SpecApart.v). *)
From stdpp Require Import prelude list gmap.
From Verif Require Import Base Api ModelSparse ModelEntity ModelGroup ModelWorld ModelQuery ModelStep ModelConc SpecConc
  Spec History SpecApart ProofSparse ProofEntity ProofGroup ProofWorld ProofOps ProofRemove ProofWf ProofMain ProofHistory ProofHistory2 ProofQuery3 ProofQuery4 PropEntity
  ProofConc ProofConc2 ProofConc3 ProofConc4 ProofConc5 ProofConc6 ProofConc7 ProofConc8 ProofConc9 ProofConc10 ProofApart ProofApart2.

Section apart.
Context {V : Type}.
Implicit Types (w : world V) (aw : aworld V) (c : conf V).

Section runs.
Variables (w0 : world V) (shared kept : nat -> bool) (still : bool) (L0 : nat -> nat -> Prop) (clean : Prop).
Hypothesis (Hsk : forall e, shared e = true -> kept e = true).
Variable (own : nat -> gset nat).
Local Notation WI := (WI w0 shared kept still L0 clean).
Local Notation proto := (proto w0 shared kept still L0 clean).

(** nobody loses entities that are kept *)
Lemma trans_kept aw lab g g' e : trans w0 shared kept still clean aw lab g g' -> gwf w0 shared kept still clean aw g -> e ∈ g_mine g -> kept e = true -> e ∈ g_mine g'.
Proof.
  intros Ht Hg He Hk. destruct lab; simpl in Ht.
  - destruct Ht as [->|(x & G & T & _ & -> & _)]; done.
  - destruct Ht as [_ ->]. cbn. by apply elem_of_union_l.
  - destruct Ht as [_ ->]. cbn. by apply elem_of_union_l.
  - destruct Ht as (G & T & Hd & _ & _ & ->). destruct Hg as (_ & _ & Hg). rewrite Hd in Hg. destruct Hg as (_ & Hk' & _). simpl.
    apply elem_of_difference. split; [done|]. intros ->%elem_of_singleton. congruence.
  - by destruct Ht as (_ & _ & _ & ->).
  - by destruct Ht as (_ & _ & _ & _ & ->).
  - by destruct Ht as (_ & gone & _ & _ & ->).
  - by destruct Ht as (G & T & _ & _ & _ & ->).
  - by destruct Ht as (t & todo & _ & ->).
  - by destruct Ht as (_ & t & gone & _ & _ & ->).
  - by destruct Ht as (G & _ & _ & _ & _ & ->).
  - by destruct Ht as [_ ->].
  - destruct o; try done; [destruct Ht as (_ & _ & ->)|destruct Ht as (_ & _ & ->)|destruct Ht as [_ ->]|subst g']; done.
Qed.

Record AI c : Prop := {
  ai_c : cinv w0 nolt False c;
  ai_w : exists γ aw, WI γ (cf_world c) aw /\
    (forall n e, e ∈ own n -> kept e = true -> e ∈ g_mine (γ n)) /\
    (forall i, cf_threads c !! i = None -> idle (γ i)) /\
    forall i th, cf_threads c !! i = Some th -> proto i (γ i) (th_prog th) (fun g _ => idle g) (fun _ => False)
}.
Lemma AI_step i c c' : AI c -> cstep i c = Some c' -> AI c'.
Proof.
  intros [Hc (γ & aw & Hw & Hkp & Hn & Hp)] Hs. assert (cinv w0 nolt False c') as Hc' by (by eapply cstep_cinv). split; [done|].
  pose proof (ci_shape _ _ _ _ Hc) as Sh. pose proof (ci_shape _ _ _ _ Hc') as Sh'.
  destruct (cf_threads c !! i) as [th|] eqn:Hi; [|unfold cstep in Hs; by rewrite Hi in Hs].
  pose proof (Hp i th Hi) as Hpi.
  assert (forall γ' aw' th' w', c' = Cf w' (<[i := th']> (cf_threads c)) -> WI γ' w' aw' -> (forall m, m <> i -> γ' m = γ m) ->
    (forall e, e ∈ g_mine (γ i) -> kept e = true -> e ∈ g_mine (γ' i)) ->
    proto i (γ' i) (th_prog th') (fun g _ => idle g) (fun _ => False) ->
    exists γ aw, WI γ (cf_world c') aw /\ (forall n e, e ∈ own n -> kept e = true -> e ∈ g_mine (γ n)) /\ (forall i, cf_threads c' !! i = None -> idle (γ i)) /\
      forall i th, cf_threads c' !! i = Some th -> proto i (γ i) (th_prog th) (fun g _ => idle g) (fun _ => False)) as HX.
  { intros γ' aw' th' w' -> H1 H2 H2' H3. exists γ', aw'. split; [done|]. split.
    { intros n e He Hk. destruct (decide (n = i)) as [->|Hne]; [|rewrite H2 by done]; auto. }
    split.
    { intros j Hj. cbn [cf_threads] in Hj. destruct (decide (i = j)) as [<-|Hne]; [rewrite list_lookup_insert in Hj by (by eapply lookup_lt_Some); done|].
      rewrite list_lookup_insert_ne in Hj by done. rewrite H2 by done. by apply Hn. }
    intros j t Hj. cbn [cf_threads] in Hj. destruct (decide (i = j)) as [<-|Hne].
    - rewrite list_lookup_insert in Hj by (by eapply lookup_lt_Some). by injection Hj as <-.
    - rewrite list_lookup_insert_ne in Hj by done. rewrite H2 by done. by apply Hp. }
  destruct (did i c) as [lab|] eqn:Ed.
  - destruct (cstep_piece _ _ _ i c c' lab Hc Ed Hs) as (th1 & Hi1 & Hm & _). assert (th1 = th) as -> by congruence.
    unfold did in Ed. rewrite Hi in Ed. unfold next_label in Ed. destruct th as [hs p]. cbn [th_prog] in *. destruct p as [a| | | |l x k|l x k|B lb f k]; try done.
    injection Ed as ->. destruct (Hpi (cf_world c) aw) as (g' & Ht & Hk); [by split; [|by exists γ]|].
    destruct (WI_step w0 shared kept still L0 clean Hsk γ i _ aw lab g' (cf_world c') Sh) as [aw' Hw']; [by eapply shape_trans; [apply shape_sym|]|done|done|done|].
    unfold cstep in Hs. rewrite Hi in Hs. unfold tstep in Hs. cbn [th_prog th_holds] in Hs.
    destruct (f (cf_world c)) as [[b| | |] w'] eqn:Ef; injection Hs as <-; cbn [fst cf_world] in *;
      (eapply HX; [done|exact Hw'|intros m Hm'; by rewrite upd_other|rewrite upd_same; intros e He Hk0; eapply trans_kept; [exact Ht|apply Hw|done|done]|rewrite upd_same; cbn; done]).
  - pose proof (cstep_quiet i c c' Ed Hs) as Ew. unfold did in Ed. rewrite Hi in Ed. unfold next_label in Ed. unfold cstep in Hs. rewrite Hi in Hs.
    unfold tstep in Hs. destruct th as [hs p]. cbn [th_prog th_holds] in *. destruct p as [a| | | |l x k|l x k|B lb f k]; try done.
    + destruct (conflict _ l x); [done|]. injection Hs as <-. eapply HX; [done|exact Hw|done|done|]. exact Hpi.
    + injection Hs as <-. eapply HX; [done|exact Hw|done|done|]. exact Hpi.
Qed.
Lemma AI_run sched : forall c c', AI c -> run sched c = Some c' -> AI c'.
Proof.
  induction sched as [|i sched IH]; intros c c' H; simpl; [by intros [= <-]|]. destruct (cstep i c) as [c1|] eqn:E; [|done]. apply IH. by eapply AI_step.
Qed.
End runs.

(** ** The start *)
Definition calm_aw aw : aworld V :=
  a_set_groups ((fun g => AG (ag_kind g) (ag_a g) (ag_b g) (ag_mem g) false) <$> a_groups aw) aw.
Lemma R_calm w aw : R w aw -> R w (calm_aw aw).
Proof.
  intros H. split; simpl; try apply H.
  - apply Forall2_fmap_r. eapply Forall2_impl; [apply H|]. intros g ag Hg. by apply gok_weaken.
  - intros i j g h t Hij Hg Hh. rewrite list_lookup_fmap in Hg, Hh. destruct (a_groups aw !! i) as [g0|] eqn:E1; [|done]. destruct (a_groups aw !! j) as [h0|] eqn:E2; [|done].
    injection Hg as <-. injection Hh as <-. exact (R_safe _ _ H i j g0 h0 t Hij E1 E2).
Qed.
Definition left_at (ops : list (op V)) (w0 : world V) (i e : nat) : Prop :=
  exists k a b, group_head i w0 = Some (k, a, b) /\ left_out (seen ops) k a b e = true.
Definition first ops (own : nat -> gset nat) (n : nat) : ghost V := Gh (own n) ∅ DNone (value_of (seen ops)) knows_nothing.
Lemma WI_start ops shared kept still own : rules ops -> divided shared kept (alive (seen ops)) own ->
  exists aw, WI (after ops) shared kept still (left_at ops (after ops)) (bare_dead (after ops) shared kept (seen ops)) (first ops own) (after ops) aw.
Proof.
  intros L (Ho & Hd & Hs & Hk). destruct (reached ops L) as [H A]. pose proof (agree2_exec ops L) as A2.
  exists (calm_aw (aexec ops a_init)). split; cbn [first g_mine].
  - by apply R_calm.
  - intros n e E. apply Ho in E. by apply (ag_alive _ _ A) in E.
  - exact Hs.
  - exact Hd.
  - intros i ag Hi. simpl in Hi. rewrite list_lookup_fmap in Hi. destruct (a_groups _ !! i); [|done]. by injection Hi as <-.
  - intros i ag e Hi Hb He. left. simpl in Hi. rewrite list_lookup_fmap in Hi. destruct (a_groups (aexec ops a_init) !! i) as [g|] eqn:E; [|done]. injection Hi as <-. simpl in *.
    exists (ag_kind g), (ag_a g), (ag_b g). split; [by eapply R_head|]. apply not_false_iff_true. intros Hl. apply He. apply (ag_left _ _ A2); [by eapply elem_of_list_lookup_2|].
    apply both_has_iff in Hb as [Hb1 Hb2]. done.
  - intros n. split; [|split; [|done]]; cbn [g_known].
    + by intros e ?%elem_of_empty.
    + intros Hc t e He Hco _. cbn [first g_has]. rewrite (ag_val _ _ A). apply alike_refl.
  - intros Hc t e Hke Hl Hh. assert (value_of (seen ops) t e = None) as Hv. { apply Hc; [|done]. by rewrite (ag_alive _ _ A). }
    rewrite (ag_val _ _ A) in Hv. unfold comp in Hv. unfold hasc in Hh. cbn [calm_aw a_set_groups a_comps] in Hh. change (is_Some (comp (aexec ops a_init) t e)) in Hh. unfold comp in Hh. setoid_rewrite Hv in Hh. by destruct Hh.
  - intros t e _ Ha Hh. assert (value_of (seen ops) t e = None) as Hv. { apply (unhanded_no_components ops L). by rewrite (ag_handed _ _ A). }
    rewrite (ag_val _ _ A) in Hv. unfold comp in Hv. unfold hasc in Hh. cbn [calm_aw a_set_groups a_comps] in Hh. change (is_Some (comp (aexec ops a_init) t e)) in Hh. unfold comp in Hh. setoid_rewrite Hv in Hh. by destruct Hh.
  - done.
Qed.
Lemma AI_start ops shared kept still own cs : rules ops -> divided shared kept (alive (seen ops)) own ->
  (forall n cl, cs !! n = Some cl -> minds (after ops) shared kept still (own n) knows_nothing [] cl) ->
  AI (after ops) shared kept still (left_at ops (after ops)) (bare_dead (after ops) shared kept (seen ops)) own (start (after ops) cs).
Proof.
  intros L Hd Hcs. destruct (WI_start ops shared kept still own L Hd) as [aw Hw]. destruct (reached ops L) as [H _]. split.
  { apply start_cinv; [intros _; by eapply R_good|]. apply Forall_forall. intros cl _. by apply any_client. }
  exists (first ops own), aw. split; [done|]. split; [done|].
  split; [intros i _; by left|]. intros i th Hi. cbn [start cf_threads] in Hi. rewrite list_lookup_fmap in Hi. destruct (cs !! i) as [cl|] eqn:E; [|done]. injection Hi as <-. cbn [th_prog].
  apply proto_compile; [|by left|by apply Hcs]. intros j k a b Hh. by eapply R_types.
Qed.

(** ** What a query of an owning group answers *)
Lemma shows_comp w aw t id : R w aw -> shows w t id = comp aw t id.
Proof.
  intros H. rewrite shows_wvalue by (by eapply R_good). unfold wvalue, comp. pose proof (R_st _ _ H t) as S.
  destruct (w_comps w !! t) as [st|]; [|by destruct (a_comps aw !! t)]. destruct (a_comps aw !! t) as [m|]; [|done]. destruct S as [_ S]. apply (rep_lookup _ _ _ S).
Qed.
Lemma owning_query w aw i ag (ma mb : bool) : R w aw -> a_groups aw !! i = Some ag -> ag_kind ag <> KNon ->
  exists l, step (Query (QGroup (ag_kind ag) ma mb (ag_a ag) (ag_b ag))) w = (Ret (OItems l), w) /\ NoDup l.*1 /\
    forall id x, (id, x) ∈ l <-> id ∈ ag_mem ag /\ both_vals (shows w) (ag_a ag) (ag_b ag) id = Some x.
Proof.
  intros H Hi Hk. set (q := QGroup (ag_kind ag) ma mb (ag_a ag) (ag_b ag)).
  destruct (Forall2_lookup_r _ _ _ _ _ (R_gr _ _ H) Hi) as (g & Hg & [_ Ne (sa & sb & Ha & Hb & _)]). destruct Ne as [?|Ne]; [done|].
  destruct (srel_Some_r _ _ _ _ _ (R_st _ _ H) Ha) as (xa & Hxa & _). destruct (srel_Some_r _ _ _ _ _ (R_st _ _ H) Hb) as (xb & Hxb & _).
  assert (existsb (ag_same (ag_kind ag) (ag_a ag) (ag_b ag)) (a_groups aw) = true) as Hex.
  { apply same_key. apply elem_of_list_fmap. exists ag. split; [done|]. by eapply elem_of_list_lookup_2. }
  assert (a_open aw q = Ret tt) as O.
  { unfold a_open, q. cbn [q_reqs open_reqs]. unfold registered. rewrite !decide_True by eauto. cbn [existsb fst snd]. rewrite (proj2 (Nat.eqb_neq _ _) Ne). simpl. by rewrite Hex. }
  assert (q_fresh aw q = true) as Fr. { unfold q. simpl. by destruct (ag_kind ag). }
  pose proof (run_query_order _ _ q H Fr) as S. rewrite O in S. destruct S as (l & E & [N Q] & _).
  exists l. split; [cbn [step]; unfold fmapM, bind, get, lift; by rewrite E|]. split; [done|].
  assert (find_agroup aw (ag_kind ag) (ag_a ag) (ag_b ag) = Some ag) as Ef.
  { unfold find_agroup. rewrite find_existsb in Hex. destruct (List.find _ _) as [g'|] eqn:Ef; [|done].
    apply List.find_some in Ef as [Hin Es]. apply ag_same_inv in Es as (Ek & Ea & Eb). apply elem_of_list_In, elem_of_list_lookup in Hin as [j Hj].
    destruct (decide (i = j)) as [<-|Hne]; [congruence|]. exfalso.
    assert (ag_owns ag (ag_a ag) = true /\ ag_owns g' (ag_a ag) = true) as [O1 O2].
    { unfold ag_owns. rewrite Ek, Ea, Eb. destruct (ag_kind ag); [..|done]; by rewrite Nat.eqb_refl. }
    destruct (Nat.lt_total i j) as [Hlt|[?|Hlt]]; [|done|].
    - pose proof (R_safe _ _ H i j ag g' (ag_a ag) Hlt Hi Hj O1). congruence.
    - pose proof (R_safe _ _ H j i g' ag (ag_a ag) Hlt Hj Hi O2). congruence. }
  assert (forall id, pair_get aw (ag_a ag) (ag_b ag) id = both_vals (shows w) (ag_a ag) (ag_b ag) id) as Hp.
  { intros id. unfold pair_get, both_vals. by rewrite !(shows_comp w aw) by done. }
  intros id x. rewrite Q. unfold q. cbn [q_visits q_get]. rewrite Ef, bool_decide_eq_true. destruct (ag_kind ag); [by rewrite Hp|by rewrite Hp|done].
Qed.
End apart.

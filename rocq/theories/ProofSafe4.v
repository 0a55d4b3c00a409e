(** Whole runs. *)
From stdpp Require Import prelude list gmap.
From Verif Require Import Base Api ModelSparse ModelEntity ModelGroup ModelWorld ModelQuery ModelStep ModelConc SpecConc
  Spec History SpecApart ProofSparse ProofGroup ProofWorld ProofWf ProofConc ProofConc2 ProofConc3 ProofConc4 ProofConc5 ProofConc6 ProofConc7 ProofConc8 ProofConc10
  ProofLin ProofApart ProofApart2 ProofApart3 ProofSafe ProofSafe2 ProofSafe3.

Section run.
Context {V : Type}.
Implicit Types (w u : world V) (h hs mine : list (lock * bool)) (c : conf V).
Variables (w0 : world V) (I : world V -> Prop) (lt : lock -> lock -> Prop).

Definition SI c : Prop := forall i th, cf_threads c !! i = Some th ->
  exists u, agree (th_holds th) u (cf_world c) /\ sft I (th_holds th) u (th_prog th).
Lemma conflict_more hs hs' l x : conflict (hs ++ hs') l x = false -> conflict hs l x = false.
Proof. intros H. destruct (conflict hs l x) eqn:E; [|done]. apply conflict_true in E as (y & Hy & Hc). rewrite <- H. symmetry. apply conflict_true. exists y. split; [|done]. apply elem_of_app. by left. Qed.
Lemma SI_step i c c' : cinv w0 lt False c -> cinv w0 lt False c' -> I (cf_world c) -> I (cf_world c') -> SI c -> cstep i c = Some c' -> SI c'.
Proof.
  intros HC HC' I1 I2 HS Hs j th' Hj. destruct (decide (i = j)) as [<-|Hij].
  - unfold cstep in Hs. destruct (cf_threads c !! i) as [th|] eqn:Hi; [|done]. destruct (HS i th Hi) as (u & Ha & Hf).
    unfold tstep in Hs. destruct th as [hs p]. cbn [th_holds th_prog] in *. unfold sft in *.
    destruct p as [a| | | |l x k|l x k|B lab f k]; try done.
    + destruct (conflict _ l x) eqn:Ec; [done|]. injection Hs as <-. cbn [cf_threads cf_world] in *. rewrite list_lookup_insert in Hj by (by eapply lookup_lt_Some).
      injection Hj as <-. cbn [th_holds th_prog]. exists (cf_world c). split; [apply agree_refl|]. eapply sft_ub. apply Hf; [|by rewrite app_nil_r|done].
      rewrite app_nil_r. by eapply conflict_more.
    + injection Hs as <-. cbn [cf_threads cf_world] in *. rewrite list_lookup_insert in Hj by (by eapply lookup_lt_Some).
      injection Hj as <-. cbn [th_holds th_prog]. destruct Hf as [H1 H2]. exists u. split; [|by eapply sft_ub].
      eapply agree_sub; [|exact Ha]. intros y. apply drop_hold_subset.
    + assert (cf_world c' = (f (cf_world c)).2) as Ew by (destruct (f (cf_world c)) as [[] ?]; by injection Hs as <-). rewrite Ew in *.
      specialize (Hf (cf_world c)). rewrite app_nil_r in Hf. specialize (Hf Ha I1 I2).
      destruct (f (cf_world c)) as [[b| | |] w'] eqn:E; cbn [fst snd] in *; injection Hs as <-; cbn [cf_threads cf_world] in *;
        rewrite list_lookup_insert in Hj by (by eapply lookup_lt_Some); injection Hj as <-; cbn [th_holds th_prog]; exists w'; (split; [apply agree_refl|]).
      * by eapply sft_ub.
      * apply near_refl.
      * done.
      * done.
  - rewrite (step_other i j c c' Hij Hs) in Hj. destruct (HS j th' Hj) as (u & Ha & Hf). exists u. split; [|done].
    eapply agree_trans; [exact Ha|]. split; [eapply shape_trans; [apply shape_sym, HC|apply HC']|]. intros l x Hx. by eapply step_protect.
Qed.
End run.

Section owning.
Context {V : Type}.
Implicit Types (w u : world V) (aw : aworld V) (c : conf V) (cs : list (client V)).
Definition owned w0 w : Prop := same_shape w0 w /\ exists aw, R w aw.
Lemma owned_good w0 w : owned w0 w -> same_shape w0 w /\ good w.
Proof. intros [H [aw HR]]. split; [done|by eapply R_good]. Qed.
Lemma owned_dyn w0 w i k a b g : owned w0 w -> group_head i w0 = Some (k, a, b) -> w_groups w !! i = Some g ->
  exists ag sa sb, ag_kind ag = k /\ gstat g ag /\ w_comps w !! a = Some sa /\ w_comps w !! b = Some sb /\ gdyn g (st_set sa) (st_set sb) (ag_mem ag) (ag_fresh ag).
Proof.
  intros [Sh [aw HR]] Hh Hg. rewrite (sh_groups _ _ Sh i) in Hh. destruct (Forall2_lookup_l _ _ _ _ _ (R_gr _ _ HR) Hg) as (ag & Hag & Hok).
  pose proof (R_head _ _ i ag HR Hag) as Hh'. rewrite Hh in Hh'. injection Hh' as -> -> ->.
  destruct (gok_dyn _ _ _ Hok) as (sa & sb & H1 & H2 & H3). exists ag, sa, sb. split; [done|]. split; [apply Hok|done].
Qed.
Lemma within_intro t n w st : w_comps w !! t = Some st -> n <= length (entities (st_set st)) -> within t n w.
Proof. intros H Hn. exists (entities (st_set st)). unfold places. by rewrite H. Qed.
Lemma owned_full w0 w i a b g : owned w0 w -> group_head i w0 = Some (KFull, a, b) -> w_groups w !! i = Some g -> both_in a b (g_len g) w.
Proof.
  intros H1 H2 H3. destruct (owned_dyn _ _ _ _ _ _ _ H1 H2 H3) as (ag & sa & sb & Ek & Hs & Ha & Hb & Hd). unfold gstat in Hs.
  destruct g as [d|d|d]; destruct Hs as [Hk _]; try congruence. destruct Hd as (La & Lb & _). split; by eapply within_intro.
Qed.
Lemma owned_part w0 w i a b g : owned w0 w -> group_head i w0 = Some (KPart, a, b) -> w_groups w !! i = Some g -> within a (g_len g) w /\ within b 0 w.
Proof.
  intros H1 H2 H3. destruct (owned_dyn _ _ _ _ _ _ _ H1 H2 H3) as (ag & sa & sb & Ek & Hs & Ha & Hb & Hd). unfold gstat in Hs.
  destruct g as [d|d|d]; destruct Hs as [Hk _]; try congruence. destruct Hd as (La & _). split; (eapply within_intro; [done|]); [done|lia].
Qed.
Lemma AI_owned w0 shared kept still L0 clean own c : AI w0 shared kept still L0 clean own c -> owned w0 (cf_world c).
Proof. intros [Hc (γ & aw & Hw & _)]. split; [apply Hc|]. exists aw. apply Hw. Qed.
Lemma SI_start w0 cs : Forall client_own cs -> owned w0 w0 -> SI (owned w0) (start w0 cs).
Proof.
  intros Hcs Ho i th Hi. cbn [start cf_threads cf_world] in *. rewrite list_lookup_fmap in Hi. destruct (cs !! i) as [cl|] eqn:E; [|done]. injection Hi as <-.
  exists w0. split; [apply agree_refl|]. cbn [th_holds th_prog].
  apply (sf_compile w0 (owned w0) (owned_good w0) (fun w i a b g => owned_full w0 w i a b g) (fun w i a b g => owned_part w0 w i a b g) cl [] w0); [done|].
  by eapply Forall_lookup_1.
Qed.
Lemma SI_run w0 shared kept still L0 clean own (Hsk : forall e, shared e = true -> kept e = true) sched : forall c c', AI w0 shared kept still L0 clean own c -> SI (owned w0) c -> run sched c = Some c' -> SI (owned w0) c'.
Proof.
  induction sched as [|i sched IH]; intros c c' H HS; simpl; [by intros [= <-]|]. destruct (cstep i c) as [c1|] eqn:E; [|done].
  pose proof (AI_step _ _ _ _ _ _ Hsk own i _ _ H E) as H1. apply IH; [done|].
  eapply (SI_step w0 (owned w0) nolt i c c1); [apply H|apply H1|by eapply AI_owned|by eapply AI_owned|done|done].
Qed.
End owning.

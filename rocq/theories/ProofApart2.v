(** The shared world of threads that keep to [minds]: its groups stay right,
    except for what threads are in the middle of. *)
From stdpp Require Import prelude list gmap.
From Verif Require Import Base Api ModelSparse ModelEntity ModelGroup ModelWorld ModelQuery ModelStep ModelConc SpecConc
  Spec History SpecApart ProofSparse ProofEntity ProofGroup ProofWorld ProofOps ProofOps2 ProofRemove ProofWf ProofConc ProofConc2 ProofConc3 ProofConc4 ProofConc5 ProofConc6 ProofConc7 ProofConc8 ProofConc10 ProofApart.

Lemma wf_rep {V} (s : sset V) : ss_wf s -> exists m, ss_rep s m (length (indices s)).
Proof.
  intros W. exists (list_to_map (zip (entities s) (sdata s))). split; [done| |done]. intros e.
  assert (NoDup (zip (entities s) (sdata s)).*1) as ND.
  { rewrite fst_zip by (rewrite (wf_len s W); lia). by apply wf_nodup. }
  apply option_eq. intros v. rewrite <- elem_of_list_to_map by done. rewrite elem_of_list_lookup. unfold ss_lookup. split.
  - destruct (ss_get_index s e) as [i|] eqn:E; [|done]. intros Hv. exists i. apply (wf_pos s W) in E. rewrite lookup_zip_with, E. simpl. by rewrite Hv.
  - intros [i Hi]. rewrite lookup_zip_with in Hi. destruct (entities s !! i) as [x|] eqn:E; [|done]. simpl in Hi.
    destruct (sdata s !! i) as [y|] eqn:E'; [|done]. injection Hi as -> ->. apply (wf_pos s W) in E. by rewrite E.
Qed.

Section apart.
Context {V : Type}.
Implicit Types (w : world V) (aw : aworld V) (ac : gmap nat (gmap nat V)).

Lemma R_good w aw : R w aw -> good w.
Proof.
  intros H. split.
  - intros t st Hst. destruct (srel_Some_r _ _ _ _ _ (R_st _ _ H) Hst) as (m & _ & Ty & Rt). split; [done|apply Rt].
  - intros i d Hi. destruct (Forall2_lookup_l _ _ _ _ _ (R_gr _ _ H) Hi) as (ag & _ & [_ _ (sa & sb & _ & _ & Hd)]). apply Hd.
  - intros r x Hr. rewrite (R_res _ _ H) in Hr. destruct (a_res aw !! r); [|done]. by injection Hr as <-.
Qed.
Lemma R_head w aw i ag : R w aw -> a_groups aw !! i = Some ag -> group_head i w = Some (ag_kind ag, ag_a ag, ag_b ag).
Proof.
  intros H Hi. destruct (Forall2_lookup_r _ _ _ _ _ (R_gr _ _ H) Hi) as (g & Hg & [St _ _]). unfold group_head. rewrite Hg.
  destruct g; simpl in St; destruct St as (-> & -> & ->); done.
Qed.
Lemma R_types w aw i k a b : R w aw -> group_head i w = Some (k, a, b) -> has_registered a w = true /\ has_registered b w = true.
Proof.
  intros H Hh. unfold group_head in Hh. destruct (w_groups w !! i) as [g|] eqn:Hg; [|done].
  destruct (Forall2_lookup_l _ _ _ _ _ (R_gr _ _ H) Hg) as (ag & _ & [St _ (sa & sb & Ha & Hb & _)]).
  assert (ag_a ag = a /\ ag_b ag = b) as [<- <-]. { destruct g; simpl in *; destruct St as (? & ? & ?); injection Hh as; subst; done. }
  unfold has_registered. rewrite Ha, Hb. by rewrite !bool_decide_true by eauto.
Qed.

Variables (w0 : world V) (shared kept : nat -> bool) (still : bool) (L0 : nat -> nat -> Prop) (clean : Prop).
Hypothesis (Hsk : forall e, shared e = true -> kept e = true).
Local Notation N := (n_groups w0).
Local Notation listed := (listed w0).
Local Notation with_ty := (with_ty w0).
Local Notation gwf := (gwf w0 shared kept still clean).
Local Notation sees := (sees w0 shared kept still clean).
Local Notation WI := (WI w0 shared kept still L0 clean).
Local Notation learn := (learn shared).
Local Notation common := (common w0 shared kept).
Local Notation may_attach := (may_attach w0 shared kept).
Local Notation alike := (alike still).

Definition upd (γ : nat -> ghost V) (n : nat) (g : ghost V) : nat -> ghost V := fun m => if decide (m = n) then g else γ m.
Lemma upd_same γ n g : upd γ n g n = g.
Proof. unfold upd. by rewrite decide_True. Qed.
Lemma upd_other γ n g m : m <> n -> upd γ n g m = γ m.
Proof. intros H. unfold upd. by rewrite decide_False. Qed.
Lemma both_has_iff ac a b e : both_has ac a b e = true <-> hasc ac a e /\ hasc ac b e.
Proof. unfold both_has. rewrite andb_true_iff, !bool_decide_eq_true. done. Qed.
Lemma owes_upd γ n g' i e : (exists m, owes (γ m) i e) -> (owes (γ n) i e -> owes g' i e) -> exists m, owes (upd γ n g' m) i e.
Proof.
  intros [m Hm] H. destruct (decide (m = n)) as [->|Hne].
  - exists n. rewrite upd_same. auto.
  - exists m. by rewrite upd_other.
Qed.

(** What the other threads are in the middle of is not affected. *)
Lemma gwf_other γ n m w aw aw' : WI γ w aw -> m <> n ->
  (forall e, kept e = true -> live aw e -> live aw' e) ->
  (forall i ag', a_groups aw' !! i = Some ag' -> exists ag, a_groups aw !! i = Some ag /\
     forall e, e ∈ g_mine (γ n) \/ shared e = true \/ (e ∈ ag_mem ag' <-> e ∈ ag_mem ag)) ->
  (forall t e, may_attach (g_mine (γ n)) t e \/ alike (comp aw' t e) (comp aw t e)) ->
  gwf aw' (γ m).
Proof.
  intros H Hne Hk Hg Hc. destruct (wi_ghost _ _ _ _ _ _ _ _ _ H m) as (H1 & H1' & H2). split.
  { intros e He. destruct (H1 e He). auto. }
  assert (forall t e, e ∈ g_mine (γ m) -> ~ common t e -> alike (comp aw' t e) (comp aw t e)) as Hcm.
  { intros t e He Hco. destruct (Hc t e) as [[Hn|Hm]|?]; [| |done].
    - by destruct (Hne (wi_disj _ _ _ _ _ _ _ _ _ H _ _ _ He Hn)).
    - by destruct (Hco Hm). }
  split.
  { intros Hcl t e He Hco Hd. eapply alike_trans; [by apply Hcm|by apply H1']. }
  assert (forall i ag' e, a_groups aw' !! i = Some ag' -> e ∈ g_mine (γ m) -> exists ag, a_groups aw !! i = Some ag /\ (e ∈ ag_mem ag' <-> e ∈ ag_mem ag)) as Hx.
  { intros i ag' e Hi He. destruct (Hg i ag' Hi) as (ag & Ha & Hm). exists ag. split; [done|]. destruct (Hm e) as [Hn|[Hs|?]]; [| |done].
    - by destruct (Hne (wi_disj _ _ _ _ _ _ _ _ _ H _ _ _ He Hn)).
    - apply (wi_sh _ _ _ _ _ _ _ _ _ H) in He. congruence. }
  destruct (g_do (γ m)) as [|t e todo|t e gone|e G T]; [done|done|..].
  - destruct H2 as [He H2]. split; [done|]. intros i Hi. destruct (H2 i Hi) as [Ht Hm]. split; [done|]. intros ag' Ha'.
    destruct (Hx i ag' e Ha' He) as (ag & Ha & Hiff). rewrite Hiff. by apply Hm.
  - destruct H2 as (He & Hke & Hni & Kg & Kt). do 3 (split; [done|]). split.
    + intros i b Hi ag' Ha'. destruct (Hx i ag' e Ha' He) as (ag & Ha & Hiff). rewrite Hiff. by eapply Kg.
    + intros t b Ht. rewrite <- (Kt t b Ht). apply Hcm; [done|]. intros [Hs|[Hs _]]; [apply Hsk in Hs|]; congruence.
Qed.
Lemma WI_frame γ n g' w aw w' aw' : WI γ w aw -> R w' aw' ->
  (forall m e, m <> n -> e ∈ g_mine (γ m) -> live aw' e) ->
  (forall e, kept e = true -> live aw e -> live aw' e) ->
  (forall e, e ∈ g_mine g' -> live aw' e /\ shared e = false /\ forall m, m <> n -> e ∉ g_mine (γ m)) ->
  (forall i ag', a_groups aw' !! i = Some ag' -> exists ag, a_groups aw !! i = Some ag /\ ag_fresh ag' = ag_fresh ag /\
     forall e, e ∈ g_mine (γ n) \/ shared e = true \/ (e ∈ ag_mem ag' <-> e ∈ ag_mem ag)) ->
  (forall t e, may_attach (g_mine (γ n)) t e \/ alike (comp aw' t e) (comp aw t e)) ->
  (forall i ag e, a_groups aw' !! i = Some ag -> both_has (a_comps aw') (ag_a ag) (ag_b ag) e = true -> e ∉ ag_mem ag ->
    L0 i e \/ exists m, owes (upd γ n g' m) i e) ->
  gwf aw' g' ->
  (clean -> forall t e, ~ common t e -> ~ live aw' e -> ~ hasc (a_comps aw') t e) ->
  (forall t e, ~ common t e -> ~ allocated aw' e -> ~ hasc (a_comps aw') t e) ->
  (forall t e, g_bare g' t e = true -> e ∈ g_mine g' -> ~ common t e -> ~ hasc (a_comps aw') t e) ->
  WI (upd γ n g') w' aw'.
Proof.
  intros H HR Hl Hk Hg' Hgr Hc Hall Hgw Hd Hnw Hba. split; try done.
  - intros m e. destruct (decide (m = n)) as [->|Hne]; [rewrite upd_same; apply Hg'|]. rewrite upd_other by done. by apply Hl.
  - intros m e. destruct (decide (m = n)) as [->|Hne]; [rewrite upd_same; apply Hg'|]. rewrite upd_other by done. apply H.
  - intros m k e. destruct (decide (m = n)) as [->|Hm], (decide (k = n)) as [->|Hk']; rewrite ?upd_same, ?upd_other by done; [done| | |].
    + intros He Hx. by destruct (proj2 (proj2 (Hg' e He)) k Hk').
    + intros Hx He. by destruct (proj2 (proj2 (Hg' e He)) m Hm).
    + apply H.
  - intros i ag' Hi. destruct (Hgr i ag' Hi) as (ag & Ha & -> & _). by eapply wi_fresh.
  - intros m. destruct (decide (m = n)) as [->|Hne]; [by rewrite upd_same|]. rewrite upd_other by done. eapply gwf_other; [done|done|done| |done].
    intros i ag' Hi. destruct (Hgr i ag' Hi) as (ag & Ha & _ & Hm). eauto.
  - intros m. destruct (decide (m = n)) as [->|Hne]; [by rewrite upd_same|]. rewrite upd_other by done. intros t e Hb He Hco Hh.
    destruct (Hc t e) as [[Hn|Hm]|Ha]; [| |].
    + by destruct (Hne (wi_disj _ _ _ _ _ _ _ _ _ H _ _ _ He Hn)).
    + by destruct (Hco Hm).
    + apply (wi_bare _ _ _ _ _ _ _ _ _ H m t e Hb He Hco). by apply Ha.
Qed.
Lemma mine_same γ w aw n : WI γ w aw -> forall e, e ∈ g_mine (γ n) -> live aw e /\ shared e = false /\ forall m, m <> n -> e ∉ g_mine (γ m).
Proof.
  intros H e He. split; [by eapply wi_own|]. split; [by eapply wi_sh|]. intros m Hne Hx. apply Hne. by eapply wi_disj.
Qed.

Lemma sees_do γ n w aw d aw' : WI γ w aw -> (forall e G T, g_do (γ n) = DRem e G T -> exists G' T', d = DRem e G' T') ->
  (forall t e, (forall G T, d <> DRem e G T) -> comp aw' t e = comp aw t e) -> sees aw' (with_do d (γ n)).
Proof.
  intros H Hd Hc Hcl t e He Hco Hn. cbn in *. rewrite Hc by done. apply (wi_ghost _ _ _ _ _ _ _ _ _ H n); [done|done|done|]. intros G T E.
  destruct (Hd e G T E) as (G' & T' & E'). by eapply Hn.
Qed.
Lemma idle_rem (γ : nat -> ghost V) n d : idle (γ n) -> forall e G T, g_do (γ n) = DRem e G T -> exists G' T', d = DRem e G' T'.
Proof. intros H e G T E. by destruct (idle_not_rem _ e H G T). Qed.
Lemma no_comp aw t e : ~ hasc (a_comps aw) t e -> comp aw t e = None.
Proof. intros H. destruct (comp aw t e) eqn:E; [|done]. destruct H. change (is_Some (comp aw t e)). rewrite E. by eexists. Qed.
(** The same world, more known. *)
Lemma WI_owe γ n d w aw : WI γ w aw -> (forall i e, owes (γ n) i e -> owes_do d i e) -> gwf aw (with_do d (γ n)) -> WI (upd γ n (with_do d (γ n))) w aw.
Proof.
  intros H Ho Hg. eapply WI_frame; [done|apply H|..].
  - intros m e _ He. by eapply wi_own.
  - done.
  - by eapply mine_same.
  - intros i ag Hi. exists ag. split; [done|]. split; [done|]. intros e. by right; right.
  - intros t e. by right.
  - intros i ag e Hi Hb He. destruct (wi_all _ _ _ _ _ _ _ _ _ H i ag e Hi Hb He) as [?|Hm]; [by left|]. right. eapply owes_upd; [done|apply Ho].
  - done.
  - apply H.
  - apply H.
  - exact (wi_bare _ _ _ _ _ _ _ _ _ H n).
Qed.
Lemma WI_quiet γ n w aw : WI γ w aw -> WI (upd γ n (γ n)) w aw.
Proof.
  intros H. pose proof (WI_owe γ n (g_do (γ n)) w aw H) as X. rewrite with_do_same in X. apply X; [done|apply H].
Qed.

(** ** The pieces of work *)
Lemma WI_em γ n g' w aw e next free : WI γ w aw -> em_rel e next free ->
  let aw' := AW next free (a_comps aw) (a_slots aw) (a_groups aw) (a_res aw) in
  (forall m x, m <> n -> x ∈ g_mine (γ m) -> live aw' x) ->
  (forall x, kept x = true -> live aw x -> live aw' x) ->
  (forall x, x ∈ g_mine g' -> live aw' x /\ shared x = false /\ forall m, m <> n -> x ∉ g_mine (γ m)) ->
  (forall i ag x, a_groups aw !! i = Some ag -> hasc (a_comps aw) (ag_a ag) x -> hasc (a_comps aw) (ag_b ag) x -> owes (γ n) i x -> owes g' i x) -> gwf aw' g' ->
  (clean -> forall t x, ~ common t x -> ~ live aw' x -> ~ hasc (a_comps aw) t x) ->
  (forall t x, ~ common t x -> ~ allocated aw' x -> ~ hasc (a_comps aw) t x) ->
  (forall t x, g_bare g' t x = true -> x ∈ g_mine g' -> ~ common t x -> ~ hasc (a_comps aw) t x) ->
  WI (upd γ n g') (set_em e w) aw'.
Proof.
  intros H He aw' H1 H2 H3 H4 H5 H6 H7 H8. eapply WI_frame; [done|by apply R_set_em; [apply H|]|done|done|done|..]; simpl.
  - intros i ag Hi. exists ag. split; [done|]. split; [done|]. intros x. by right; right.
  - intros t x. by right.
  - intros i ag x Hi Hb Hx. destruct (wi_all _ _ _ _ _ _ _ _ _ H i ag x Hi Hb Hx) as [?|Hm]; [by left|]. right. eapply owes_upd; [done|]. apply both_has_iff in Hb as [Ha Hb]. by eapply H4.
  - done.
  - done.
  - done.
  - done.
Qed.
(** new ids *)
Lemma WI_learn γ n w aw e next free ids f : WI γ w aw -> em_rel e next free -> idle (γ n) -> a_next aw <= next ->
  (forall t x, f (g_bare (γ n)) t x = true -> g_bare (γ n) t x = true /\ x ∉ ids \/ ~ allocated aw x) ->
  (forall x, live aw x -> live (AW next free (a_comps aw) (a_slots aw) (a_groups aw) (a_res aw)) x) ->
  (forall x, x ∈ ids -> ~ live aw x /\ live (AW next free (a_comps aw) (a_slots aw) (a_groups aw) (a_res aw)) x) ->
  WI (upd γ n (learn ids f (γ n))) (set_em e w) (AW next free (a_comps aw) (a_slots aw) (a_groups aw) (a_res aw)).
Proof.
  intros H He Hi Hnx Hf Hl Hn. apply WI_em; [done|done|..].
  - intros m x _ Hx. apply Hl. by eapply wi_own.
  - intros x _. apply Hl.
  - intros x Hx. unfold ProofApart.learn, gain in Hx. cbn [g_mine] in Hx. apply elem_of_union in Hx as [Hx|Hx].
    + destruct (mine_same _ _ _ n H x Hx) as (A & B & C). auto.
    + apply elem_of_list_to_set, elem_of_list_filter in Hx as [Hs Hx]. destruct (Hn x Hx) as [A B]. split; [done|]. split; [done|].
      intros m _ Hm. apply A. by eapply wi_own.
  - intros i ag x _ _ _ Hx. by apply idle_owes in Hx.
  - pose proof (wi_ghost _ _ _ _ _ _ _ _ _ H n) as (K & S & D). split; [|split; [|done]].
    + intros x Hx. unfold ProofApart.learn in Hx. cbn [g_known] in Hx. apply elem_of_union in Hx as [Hx|Hx].
      * destruct (K x Hx) as [A B]. split; [done|]. by apply Hl.
      * apply elem_of_list_to_set, elem_of_list_filter in Hx as [Hs Hx]. split; [by apply Hsk|]. by apply Hn.
    + intros Hc t x Hx Hco _. unfold ProofApart.learn in *. cbn [g_do g_mine g_has] in *. change (comp _ t x) with (comp aw t x). unfold wipe. case_decide as Hin.
      * rewrite (no_comp aw t x); [done|]. apply (wi_dead _ _ _ _ _ _ _ _ _ H Hc); [done|by apply Hn].
      * apply S; [done| |done|by apply idle_not_rem]. unfold gain in Hx. apply elem_of_union in Hx as [Hx|Hx]; [done|].
        apply elem_of_list_to_set, elem_of_list_filter in Hx as [_ Hx]. done.
  - intros Hc t x Hk Hx. apply (wi_dead _ _ _ _ _ _ _ _ _ H Hc); [done|]. intros Hy. by apply Hx, Hl.
  - intros t x Hco Hx. apply (wi_new _ _ _ _ _ _ _ _ _ H); [done|]. intros [Hy1 Hy2]. apply Hx. split; simpl; lia.
  - intros t x Hb Hx Hco. unfold ProofApart.learn in Hb, Hx. cbn [g_bare g_mine] in *. destruct (Hf t x Hb) as [[Hb' Hni]|Hna]; [|by apply (wi_new _ _ _ _ _ _ _ _ _ H)].
    apply (wi_bare _ _ _ _ _ _ _ _ _ H n); [done| |done]. unfold gain in Hx. apply elem_of_union in Hx as [Hx|Hx]; [done|].
    apply elem_of_list_to_set, elem_of_list_filter in Hx as [_ Hx]. done.
Qed.
Lemma WI_new γ n w aw : WI γ w aw -> idle (γ n) -> exists aw', WI (upd γ n (learn [newid aw] (unsure (newid aw)) (γ n))) (on_em em_allocate w).2 aw'.
Proof.
  intros H Hi. pose proof (R_em _ _ (wi_R _ _ _ _ _ _ _ _ _ H)) as He0. destruct (em_allocate_spec _ _ _ He0) as (e' & E & He). unfold on_em. rewrite E. cbn [snd].
  pose proof (er_nodup _ _ _ He0) as ND. pose proof (fun x => er_elem _ _ _ x He0) as El.
  eexists. eapply WI_learn; [done|exact He|done| |..].
  { destruct (a_free aw); simpl; lia. }
  { intros t x [Hx Hb]%andb_true_iff. left. split; [done|]. intros ->%elem_of_list_singleton. by rewrite Nat.eqb_refl in Hx. }
  all: unfold live, allocated, newid; cbn [a_next a_free]; destruct (a_free aw) as [|f fs] eqn:Ef; cbn [tail].
  - intros x [A B]. split; [lia|]. apply not_elem_of_nil.
  - intros x [A B]. split; [done|]. intros Hx. apply B. by right.
  - intros x ->%elem_of_list_singleton. split; [lia|]. split; [lia|]. apply not_elem_of_nil.
  - intros x ->%elem_of_list_singleton. split; [intros [_ Hx]; apply Hx; left|]. split.
    + apply El. right. left.
    + by apply NoDup_app in ND as (_ & _ & [? _]%NoDup_cons).
Qed.
Lemma WI_alloc γ n w aw k : WI γ w aw -> idle (γ n) -> exists aw', WI (upd γ n (learn (seq (S (a_next aw)) k) (blank (S (a_next aw)) (S (a_next aw) + k)) (γ n))) (on_em (em_allocate_n k) w).2 aw'.
Proof.
  intros H Hi. pose proof (R_em _ _ (wi_R _ _ _ _ _ _ _ _ _ H)) as He0. destruct (em_allocate_n_spec _ _ _ k He0) as (e' & E & He). unfold on_em. rewrite E. cbn [snd].
  pose proof (fun x => er_elem _ _ _ x He0) as El.
  eexists. eapply WI_learn; [done|exact He|done|lia| |..].
  { intros t x Hx. unfold blank in Hx. destruct (decide (a_next aw < x)) as [Ha|Ha]; [right; unfold allocated; lia|]. left.
    apply orb_true_iff in Hx as [Hx|Hx]; [apply andb_true_iff in Hx as [Hx _]; apply Nat.leb_le in Hx; lia|]. split; [done|]. intros Hin%elem_of_seq. lia. }
  all: unfold live, allocated; cbn [a_next a_free].
  - intros x [A B]. split; [lia|done].
  - intros x Hx%elem_of_seq. split; [lia|]. split; [lia|]. intros Hf. assert (1 <= x <= a_next aw); [|lia]. apply El. by right.
Qed.
Lemma WI_reg w aw t m : same_shape w0 w -> R w aw -> a_comps aw !! t = Some m -> has_registered t w0 = true.
Proof.
  intros Hs H Hm. destruct (srel_Some _ _ _ _ _ (R_st _ _ H) Hm) as (st & Hst & _). rewrite (shape_has _ _ t Hs). unfold has_registered. rewrite Hst. by apply bool_decide_eq_true.
Qed.
Lemma WI_free γ n w aw e G T : same_shape w0 w -> WI γ w aw -> g_do (γ n) = DRem e G T ->
  (forall t, has_registered t w0 = true -> T !! t = Some false) ->
  exists aw', WI (upd γ n (Gh (g_mine (γ n) ∖ {[e]}) (g_known (γ n)) DNone (g_has (γ n)) (g_bare (γ n)))) (on_em (em_remove e) w).2 aw'.
Proof.
  intros Hs H Hg HT. pose proof (wi_R _ _ _ _ _ _ _ _ _ H) as HR. pose proof (R_em _ _ HR) as He0.
  pose proof (wi_ghost _ _ _ _ _ _ _ _ _ H n) as (K & S & D). rewrite Hg in D. destruct D as (He & Hke & _ & Kg & Kt).
  destruct (wi_own _ _ _ _ _ _ _ _ _ H n e He) as [Hal Hnf].
  destruct (em_remove_spec _ _ _ e He0 Hal Hnf) as (e' & E & He'). unfold on_em. rewrite E. cbn [snd].
  assert (forall x, live aw x -> x <> e -> live (AW (a_next aw) (e :: a_free aw) (a_comps aw) (a_slots aw) (a_groups aw) (a_res aw)) x) as Hl.
  { intros x [A B] Hx. split; [done|]. simpl. by intros [?|?]%elem_of_cons. }
  assert (forall t, ~ hasc (a_comps aw) t e) as Hno.
  { intros t Ht. pose proof Ht as Ht'. unfold hasc in Ht. destruct (a_comps aw !! t) as [m|] eqn:Hm; [|by destruct Ht]. apply (Kt t false) in Ht'; [done|]. apply HT. by eapply WI_reg. }
  eexists. eapply WI_em; [done|exact He'|..].
  - intros m x Hne Hx. apply Hl; [by eapply wi_own|]. intros ->. apply Hne. by eapply wi_disj.
  - intros x Hk Hx. apply Hl; [done|]. intros ->. congruence.
  - simpl. intros x [Hx Hne]%elem_of_difference. destruct (mine_same _ _ _ n H x Hx) as (A & B & C). split; [|done]. apply Hl; [done|]. intros ->. apply Hne. by apply elem_of_singleton.
  - intros i ag x _ Ha _ Ho. unfold owes in Ho. rewrite Hg in Ho. simpl in Ho. subst x. by apply Hno in Ha.
  - split; [|split; [|done]].
    + simpl. intros x Hx. destruct (K x Hx) as [A B]. split; [done|]. apply Hl; [done|]. intros ->. congruence.
    + intros Hc t x Hx Hco _. cbn [g_mine g_has] in *. apply elem_of_difference in Hx as [Hx Hne]. apply S; [done|done|done|].
      intros G' T' E'. apply Hne, elem_of_singleton. rewrite Hg in E'. by injection E' as ->.
  - intros Hc t x Hk Hx Ht. destruct (decide (x = e)) as [->|Hne]; [by apply Hno in Ht|]. eapply (wi_dead _ _ _ _ _ _ _ _ _ H Hc); [done| |done]. intros Hy. by apply Hx, Hl.
  - exact (wi_new _ _ _ _ _ _ _ _ _ H).
  - intros t x Hb Hx. cbn [g_bare g_mine] in *. apply elem_of_difference in Hx as [Hx _]. by apply (wi_bare _ _ _ _ _ _ _ _ _ H n).
Qed.
(** writing values *)
Lemma WI_values γ n g' w aw w' aw' : WI γ w aw -> R w' aw' -> (forall x, live aw' x <-> live aw x) -> a_next aw' = a_next aw -> a_groups aw' = a_groups aw ->
  (forall t e, hasc (a_comps aw') t e <-> hasc (a_comps aw) t e) -> (forall t e, may_attach (g_mine (γ n)) t e \/ alike (comp aw' t e) (comp aw t e)) ->
  g_mine g' = g_mine (γ n) -> g_known g' = g_known (γ n) -> g_do g' = g_do (γ n) -> g_bare g' = g_bare (γ n) -> sees aw' g' -> WI (upd γ n g') w' aw'.
Proof.
  intros H HR El En Eg Hac Hal Em Ek Ed Eb Hse. eapply WI_frame; [done|done|..].
  - intros m e _ He. apply El. exact (wi_own _ _ _ _ _ _ _ _ _ H m e He).
  - intros e _. apply El.
  - intros e He. rewrite Em in He. destruct (mine_same γ w aw n H e He) as (A & B & C). split; [by apply El|done].
  - intros i ag Hi. rewrite Eg in Hi. exists ag. split; [done|]. split; [done|]. intros e. by right; right.
  - exact Hal.
  - intros i ag e Hi Hb He. rewrite Eg in Hi. apply both_has_iff in Hb as [Ha Hb]. apply Hac in Ha, Hb.
    destruct (wi_all _ _ _ _ _ _ _ _ _ H i ag e Hi) as [?|Hm]; [by apply both_has_iff|done|by left|]. right. eapply owes_upd; [done|]. unfold owes. by rewrite Ed.
  - pose proof (wi_ghost _ _ _ _ _ _ _ _ _ H n) as (K & S & D). split; [|split; [done|]].
    { rewrite Ek. intros e He. destruct (K e He). split; [done|]. by apply El. }
    rewrite Ed, Em. destruct (g_do (γ n)) as [| | |x G T]; [done|done|by rewrite Eg|].
    destruct D as (D1 & D2 & D3 & D4 & D5). do 3 (split; [done|]). split; [unfold knows_g; by rewrite Eg|]. intros t b Hb. rewrite Hac. by apply D5.
  - intros Hc t e Hk Hl. rewrite Hac. apply (wi_dead _ _ _ _ _ _ _ _ _ H Hc); [done|]. by rewrite <- El.
  - intros t e Hco Hl. rewrite Hac. apply (wi_new _ _ _ _ _ _ _ _ _ H); [done|]. unfold allocated in *. by rewrite <- En.
  - intros t e. rewrite Eb, Em, Hac. apply (wi_bare _ _ _ _ _ _ _ _ _ H n).
Qed.
Lemma WI_write γ n w aw w' : still = false -> same_shape w w' -> rewritten w w' -> WI γ w aw -> exists aw', WI (upd γ n (γ n)) w' aw'.
Proof.
  intros Hst' Hs (E1 & E2 & E3 & E4) H. pose proof (wi_R _ _ _ _ _ _ _ _ _ H) as HR. specialize (E4 (R_good _ _ HR)).
  assert (exists ac, srel (w_comps w') ac (a_slots aw) /\ forall t e, is_Some (ac !! t ≫= (.!! e)) <-> is_Some (a_comps aw !! t ≫= (.!! e))) as (ac & S & Hac).
  { set (f := fun st : storage V => list_to_map (zip (entities (st_set st)) (sdata (st_set st))) : gmap nat V). exists (f <$> w_comps w').
    assert (forall t st', w_comps w' !! t = Some st' -> exists st m, w_comps w !! t = Some st /\ a_comps aw !! t = Some m /\ st_ty st' = t /\
      ss_rep (st_set st') (f st') (a_slots aw t) /\ forall e, is_Some (f st' !! e) <-> is_Some (m !! e)) as HX.
    { intros t st' Ht'. specialize (E3 t). rewrite Ht' in E3. destruct (w_comps w !! t) as [st|] eqn:Ht; [|done]. injection E3 as E5 E6.
      destruct (srel_Some_r _ _ _ _ _ (R_st _ _ HR) Ht) as (m & Hm & _ & Rt). destruct (gd_st _ E4 t st' Ht') as [Ty W'].
      exists st, m. split; [done|]. split; [done|]. split; [done|].
      assert (ss_rep (st_set st') (f st') (a_slots aw t)) as R'.
      { rewrite <- (rep_slots _ _ _ Rt), E5. destruct (wf_rep _ W') as [m' Rm]. destruct Rm as [A B C]. split; [done| |done].
        intros e. unfold f. rewrite B. symmetry.
        assert (NoDup (zip (entities (st_set st')) (sdata (st_set st'))).*1) as ND.
        { rewrite fst_zip by (rewrite (wf_len _ W'); lia). by apply wf_nodup. }
        apply option_eq. intros v. rewrite <- elem_of_list_to_map by done. rewrite elem_of_list_lookup. rewrite <- B. unfold ss_lookup. split.
        - intros [i Hi]. rewrite lookup_zip_with in Hi. destruct (entities _ !! i) as [x|] eqn:E; [|done]. simpl in Hi.
          destruct (sdata _ !! i) as [y|] eqn:E'; [|done]. injection Hi as -> ->. apply (wf_pos _ W') in E. by rewrite E.
        - destruct (ss_get_index _ e) as [i|] eqn:E; [|done]. intros Hv. exists i. apply (wf_pos _ W') in E. rewrite lookup_zip_with, E. simpl. by rewrite Hv. }
      split; [done|]. intros e. rewrite <- (rep_elem _ _ _ e R'), <- (rep_elem _ _ _ e Rt). by rewrite E6. }
    split.
    - intros t. rewrite lookup_fmap. destruct (w_comps w' !! t) as [st'|] eqn:Ht'; simpl.
      + destruct (HX t st' Ht') as (st & m & _ & _ & Ty & R' & _). done.
      + specialize (E3 t). rewrite Ht' in E3. destruct (w_comps w !! t) eqn:Ht; [done|]. pose proof (R_st _ _ HR t) as S. rewrite Ht in S. by destruct (a_comps aw !! t).
    - intros t e. rewrite lookup_fmap. destruct (w_comps w' !! t) as [st'|] eqn:Ht'; simpl.
      + destruct (HX t st' Ht') as (st & m & _ & Hm & _ & _ & Hd). rewrite Hm. simpl. apply Hd.
      + specialize (E3 t). rewrite Ht' in E3. destruct (w_comps w !! t) eqn:Ht; [done|]. pose proof (R_st _ _ HR t) as S. rewrite Ht in S.
        destruct (a_comps aw !! t); [done|]. simpl. done. }
  exists (AW (a_next aw) (a_free aw) ac (a_slots aw) (a_groups aw) (rv_val <$> w_res w')).
  assert (forall t st, w_comps w !! t = Some st -> exists st', w_comps w' !! t = Some st' /\ entities (st_set st') = entities (st_set st) /\ indices (st_set st') = indices (st_set st)) as Hst.
  { intros t st Ht. specialize (E3 t). rewrite Ht in E3. destruct (w_comps w' !! t) as [st'|]; [|done]. injection E3 as E5 E6. by exists st'. }
  assert (forall t e, hasc ac t e <-> hasc (a_comps aw) t e) as Hac' by exact Hac.
  assert (forall t e, alike (comp (AW (a_next aw) (a_free aw) ac (a_slots aw) (a_groups aw) (rv_val <$> w_res w')) t e) (comp aw t e)) as Hal.
  { intros t e. split; [exact (Hac t e)|]. by rewrite Hst'. }
  eapply WI_values; [done| |done|done|done|exact Hac'|by right|done|done|done|done|].
  - split; simpl; try apply HR; try done.
    + rewrite <- E1. apply HR.
    + rewrite <- E2. eapply Forall2_impl; [apply HR|]. intros g ag Hg. rewrite <- (agroup_eta ag). eapply gok_change; [done|done|].
      intros t st _ Ht. destruct (Hst t st Ht) as (st' & Ht' & En & Ei). exists st'. split; [done|]. rewrite En. split; [done|]. split; [done|].
      intros _ e _. unfold ss_get_index. by rewrite Ei.
    + intros r. rewrite lookup_fmap. destruct (w_res w' !! r) as [[ty v]|] eqn:E; [|done]. simpl. pose proof (gd_res _ E4 r _ E) as Ty. simpl in Ty. by subst.
  - intros Hc t e He Hco Hd. eapply alike_trans; [apply Hal|]. by apply (wi_ghost _ _ _ _ _ _ _ _ _ H n).
Qed.
(** writing one value *)
Lemma put_comp aw t e v u x : comp (if decide (has aw t e) then a_put t e v aw else aw) u x =
  if decide (u = t /\ x = e) then match comp aw u x with Some _ => Some v | None => None end else comp aw u x.
Proof.
  destruct (decide (has aw t e)) as [Hh|Hh].
  - unfold comp, a_put. cbn [a_set_comps a_comps]. destruct (decide (u = t)) as [->|Hu].
    + rewrite lookup_alter. unfold has, comp in Hh. destruct (a_comps aw !! t) as [m|]; [|by destruct Hh]. simpl in *. destruct (decide (x = e)) as [->|Hx].
      * rewrite lookup_insert, decide_True by done. by destruct Hh as [? ->].
      * rewrite lookup_insert_ne, decide_False by naive_solver. done.
    + rewrite lookup_alter_ne, decide_False by naive_solver. done.
  - case_decide as Hd; [|done]. destruct Hd as [-> ->]. unfold has in Hh. destruct (comp aw t e) eqn:E; [|done]. destruct Hh. by eexists.
Qed.
Lemma WI_poke γ n w aw w' t e v : WI γ w aw -> idle (γ n) -> (still = true -> may_attach (g_mine (γ n)) t e) ->
  R w' (if decide (has aw t e) then a_put t e v aw else aw) -> exists aw', WI (upd γ n (with_has (over t e v (g_has (γ n))) (γ n))) w' aw'.
Proof.
  intros H Hi Hm HR. exists (if decide (has aw t e) then a_put t e v aw else aw). pose proof (put_comp aw t e v) as Hc.
  assert (forall x, live (if decide (has aw t e) then a_put t e v aw else aw) x <-> live aw x) as El by (intros x; by case_decide).
  assert (a_groups (if decide (has aw t e) then a_put t e v aw else aw) = a_groups aw) as Eg by (by case_decide).
  assert (a_next (if decide (has aw t e) then a_put t e v aw else aw) = a_next aw) as En by (by case_decide).
  revert HR Hc El Eg En. generalize (if decide (has aw t e) then a_put t e v aw else aw). intros aw' HR Hc El Eg En.
  assert (forall u x, is_Some (comp aw' u x) <-> is_Some (comp aw u x)) as Hiff.
  { intros u x. rewrite Hc. case_decide; [|done]. destruct (comp aw u x); [|done]. split; by eexists. }
  eapply WI_values; [done|done|done|done|done|exact Hiff| |done|done|done|done|].
  - intros u x. destruct (decide (u = t /\ x = e)) as [[-> ->]|Hne].
    + destruct still eqn:Es; [by left; apply Hm|]. right. split; [apply Hiff|done].
    + right. rewrite Hc, decide_False by done. done.
  - intros Hcl u x Hx Hco Hd. cbn [with_has g_mine g_has g_do] in *. pose proof (wi_ghost _ _ _ _ _ _ _ _ _ H n) as (_ & S & _). specialize (S Hcl u x Hx Hco Hd).
    rewrite Hc. unfold over. case_decide; [|done]. destruct S as [S1 S2]. destruct (comp aw u x), (g_has (γ n) u x); try done.
    + destruct (proj1 S1); [by eexists|done].
    + destruct (proj2 S1); [by eexists|done].
Qed.
Lemma WI_set γ n w aw o g' w' : same_shape w w' -> WI γ w aw -> trans w0 shared kept still clean aw (BSet o) (γ n) g' -> moves (BSet o) w w' ->
  exists aw', WI (upd γ n g') w' aw'.
Proof.
  intros Hs H Ht [Hm Hw]. pose proof (wi_R _ _ _ _ _ _ _ _ _ H) as HR. destruct o as [| | | | | | | | | |t e v| | | | | |t e v|t i v| | | | | |r v]; cbn [trans] in Ht; try done.
  - destruct Ht as (H1 & H2 & ->). eapply WI_poke; [done|done|done|]. destruct (write_spec w aw t e v HR) as (w1 & E & HR1). subst w'. cbn [step]. unfold fmapM, bind. rewrite E. exact HR1.
  - destruct Ht as (H1 & H2 & ->). eapply WI_poke; [done|done|done|]. destruct (get_mut_spec w aw t e v HR) as (w1 & E & HR1). subst w'. cbn [step]. unfold fmapM, bind. rewrite E. exact HR1.
  - destruct Ht as (H1 & ->). by eapply WI_write.
  - subst g'. destruct (resource_write_spec w aw r v HR) as (w1 & E & HR1). subst w'. cbn [step]. unfold fmapM, bind. rewrite E. cbn [snd].
    eexists. eapply WI_values; [done|exact HR1|by case_decide|by case_decide|by case_decide|by case_decide|right; by case_decide|done|done|done|done|]. case_decide; apply (wi_ghost _ _ _ _ _ _ _ _ _ H n).
Qed.
Lemma WI_ty w aw i ag t : same_shape w0 w -> R w aw -> a_groups aw !! i = Some ag -> with_ty t i = ag_types ag t.
Proof. intros Hs H Hi. unfold ProofConc6.with_ty. rewrite (sh_groups _ _ Hs i), (R_head w aw i ag H Hi). done. Qed.
Lemma WI_lt w aw i ag : same_shape w0 w -> R w aw -> a_groups aw !! i = Some ag -> i < N.
Proof.
  intros Hs H Hi. apply lookup_lt_Some in Hi. rewrite <- (Forall2_length _ _ _ (R_gr _ _ H)) in Hi. pose proof (shape_len _ _ Hs). unfold n_groups in *. lia.
Qed.
Lemma WI_listed w aw i ag t : same_shape w0 w -> R w aw -> a_groups aw !! i = Some ag -> ag_types ag t = true -> i ∈ listed t 0 N.
Proof.
  intros Hs H Hi Ht. apply listed_elem. rewrite (WI_ty w aw i ag t Hs H Hi). split; [done|]. pose proof (WI_lt w aw i ag Hs H Hi). lia.
Qed.
Lemma gwf_in aw n γ w t e : WI γ w aw -> forall aw' todo g', (forall x, live aw x -> live aw' x) -> (todo = [] \/ e ∈ g_mine (γ n) \/ shared e = true) ->
  g_mine g' = g_mine (γ n) -> g_known g' = g_known (γ n) -> g_do g' = DIn t e todo -> sees aw' g' -> gwf aw' g'.
Proof.
  intros H aw' todo g' Hl Ht Em Ek Ed Hs. destruct (wi_ghost _ _ _ _ _ _ _ _ _ H n) as (K & S & _). split; [|split; [done|]].
  - rewrite Ek. intros x Hx. destruct (K x Hx). auto.
  - rewrite Ed, Em. exact Ht.
Qed.
Lemma may_kept mine t e : may_attach mine t e -> e ∈ mine \/ kept e = true.
Proof. intros [?|[?|[? _]]]; auto. Qed.
Lemma may_todo mine t e : may_attach mine t e -> listed t 0 N = [] \/ e ∈ mine \/ shared e = true.
Proof. intros [?|[?|[_ Hu]]]; auto. left. by apply ungrouped_listed. Qed.

Lemma WI_put γ n w aw t e v : same_shape w0 w -> WI γ w aw -> idle (γ n) -> may_attach (g_mine (γ n)) t e -> has_registered t w0 = true ->
  exists aw', WI (upd γ n (with_do (DIn t e (listed t 0 N)) (with_has (set_has t e (Some v) (g_has (γ n))) (with_bare (filled t e (S e) (g_bare (γ n))) (γ n))))) (storage_mut t (ss_add e v) w).2 aw'.
Proof.
  intros Hs H Hg Hm Hreg. pose proof (wi_R _ _ _ _ _ _ _ _ _ H) as HR.
  rewrite (shape_has _ _ t Hs) in Hreg. apply bool_decide_eq_true in Hreg as [st Hst]. unfold storage_mut. rewrite Hst.
  destruct (srel_Some_r _ _ _ _ _ (R_st _ _ HR) Hst) as (m & Hm' & Ty & Rt).
  destruct (add_rep e v _ _ _ Rt) as (s' & Es & Rs' & Ps & Ps' & En). rewrite Ty, Nat.eqb_refl, Es. cbn [snd]. replace (St t s') with (St (st_ty st) s') by (by rewrite Ty).
  exists (AW (a_next aw) (a_free aw) (<[t := <[e := v]> m]> (a_comps aw)) (fun u => if decide (u = t) then a_slots aw t `max` S e else a_slots aw u) (a_groups aw) (a_res aw)).
  assert (forall sl, comp (AW (a_next aw) (a_free aw) (<[t := <[e := v]> m]> (a_comps aw)) sl (a_groups aw) (a_res aw)) t e = Some v) as Hue.
  { intros sl. unfold comp. cbn [a_comps]. rewrite lookup_insert. simpl. by rewrite lookup_insert. }
  assert (forall sl u x, ~ (u = t /\ x = e) -> comp (AW (a_next aw) (a_free aw) (<[t := <[e := v]> m]> (a_comps aw)) sl (a_groups aw) (a_res aw)) u x = comp aw u x) as Huc.
  { intros sl u x Hne. unfold comp. cbn [a_comps]. destruct (decide (u = t)) as [->|]; [|by rewrite lookup_insert_ne]. rewrite lookup_insert, Hm'. simpl.
    rewrite lookup_insert_ne; [done|]. intros ->. by apply Hne. }
  assert (forall u x, ~ (u = t /\ x = e) -> hasc (<[t:=<[e:=v]> m]> (a_comps aw)) u x <-> hasc (a_comps aw) u x) as Hu.
  { intros u x Hne. specialize (Huc (a_slots aw) u x Hne). change (is_Some (comp (AW (a_next aw) (a_free aw) (<[t := <[e := v]> m]> (a_comps aw)) (a_slots aw) (a_groups aw) (a_res aw)) u x) <-> is_Some (comp aw u x)). by rewrite Huc. }
  eapply WI_frame; [done|..]; simpl.
  - split; simpl; try apply HR.
    + by eapply srel_insert; [apply HR| |].
    + eapply Forall2_impl; [apply HR|]. intros g ag Hg'. eapply gok_append; [apply HR|done|done| |].
      * intros k Hk. rewrite En. destruct (ss_exist _ _); [done|]. by rewrite take_app_le.
      * intros x Hx. split.
        -- rewrite En. destruct (ss_exist _ _); [done|]. apply elem_of_app. by left.
        -- destruct (decide (x = e)) as [->|]; [|by apply Ps]. apply Ps'. by apply (rep_elem _ _ _ _ Rt).
  - intros k x _ Hx. exact (wi_own _ _ _ _ _ _ _ _ _ H k x Hx).
  - done.
  - exact (mine_same γ w aw n H).
  - intros i ag Hi. exists ag. split; [done|]. split; [done|]. intros x. by right; right.
  - intros u x. destruct (decide (u = t /\ x = e)) as [[-> ->]|Hne]; [by left|]. right. by rewrite Huc.
  - intros i ag x Hi Hb Hx.
    destruct (decide (x = e /\ ag_types ag t = true)) as [[-> Ht]|Hne].
    + right. exists n. rewrite upd_same. split; [done|]. by eapply WI_listed.
    + apply both_has_iff in Hb as [Ha Hb].
      assert (forall u, u = ag_a ag \/ u = ag_b ag -> ~ (u = t /\ x = e)) as Hn.
      { intros u Hu' [-> ->]. apply Hne. split; [done|]. unfold ag_types. destruct Hu' as [->| ->]; by rewrite Nat.eqb_refl, ?orb_true_r. }
      apply Hu in Ha, Hb; [|apply Hn; auto..].
      destruct (wi_all _ _ _ _ _ _ _ _ _ H i ag x Hi) as [?|Ho]; [by apply both_has_iff|done|by left|]. right. eapply owes_upd; [done|]. intros Hx'. by apply idle_owes in Hx'.
  - eapply gwf_in; [done|done|by eapply may_todo|done|done|done|]. intros Hcl u x Hx Hco _. cbn [with_do with_has g_mine g_has] in *.
    destruct (decide (u = t /\ x = e)) as [[-> ->]|Hne]; [by rewrite Hue, set_has_same|]. rewrite Huc, set_has_other by done.
    apply (wi_ghost _ _ _ _ _ _ _ _ _ H n); [done|done|done|by apply idle_not_rem].
  - intros Hc u x Hk Hl. simpl. rewrite Hu; [by apply (wi_dead _ _ _ _ _ _ _ _ _ H Hc)|]. intros [-> ->].
    destruct Hm as [He|He]; [|by destruct (Hk He)]. apply Hl. exact (wi_own _ _ _ _ _ _ _ _ _ H n e He).
  - intros u x Hk Hl. rewrite Hu; [by apply (wi_new _ _ _ _ _ _ _ _ _ H)|]. intros [-> ->].
    destruct Hm as [He|He]; [|by destruct (Hk He)]. apply Hl. apply (wi_own _ _ _ _ _ _ _ _ _ H n e He).
  - intros u x [Hf Hb]%andb_true_iff Hx Hco. rewrite Hu; [by apply (wi_bare _ _ _ _ _ _ _ _ _ H n)|]. intros [-> ->].
    rewrite Nat.eqb_refl, Nat.leb_refl, (proj2 (Nat.ltb_lt e (S e))) in Hf by lia. done.
Qed.

(** batch attach *)
Lemma batch_comp aw t m lo hi vs : a_comps aw !! t = Some m -> length vs = hi - lo -> forall u x,
  comp (a_batch lo hi t vs aw) u x = if decide (u = t /\ lo <= x < hi) then vs !! (x - lo) else comp aw u x.
Proof.
  intros Hm Hl u x. unfold comp. assert (a_comps (a_batch lo hi t vs aw) = <[t := list_to_map (zip (seq lo (hi - lo)) vs) ∪ m]> (a_comps aw)) as ->.
  { unfold a_batch. destruct (lo <? hi); simpl; by rewrite (alter_Some _ _ _ _ Hm). }
  destruct (decide (u = t)) as [->|Hu].
  2:{ rewrite lookup_insert_ne, decide_False by naive_solver. done. }
  rewrite lookup_insert, Hm. simpl. assert ((zip (seq lo (hi - lo)) vs).*1 = seq lo (hi - lo)) as Ez by (apply fst_zip; rewrite seq_length; lia).
  case_decide as Hd.
  - destruct Hd as [_ Hd]. destruct (lookup_lt_is_Some_2 vs (x - lo)) as [v Hv]; [lia|]. rewrite Hv. apply lookup_union_Some_l. apply elem_of_list_to_map.
    + rewrite Ez. apply NoDup_seq.
    + apply elem_of_list_lookup. exists (x - lo). rewrite lookup_zip_with, Hv, lookup_seq_lt by lia. simpl. by replace (lo + (x - lo)) with x by lia.
  - rewrite lookup_union_r; [done|]. apply not_elem_of_list_to_map_1. rewrite Ez. intros Hin%elem_of_seq. apply Hd. split; [done|lia].
Qed.
Lemma WI_batch γ n w aw t lo hi vs : same_shape w0 w -> WI γ w aw -> idle (γ n) -> may_batch w0 shared kept (g_mine (γ n)) (g_bare (γ n)) t lo hi -> has_registered t w0 = true ->
  length vs = hi - lo ->
  exists aw', WI (upd γ n (with_has (fill_has t lo hi vs (g_has (γ n))) (with_bare (filled t lo hi (g_bare (γ n))) (γ n)))) (storage_mut t (ss_add_batch (seq lo (hi - lo)) vs) w).2 aw'.
Proof.
  intros Hs H Hg Hm Hreg Hl. pose proof (wi_R _ _ _ _ _ _ _ _ _ H) as HR.
  rewrite (shape_has _ _ t Hs) in Hreg. apply bool_decide_eq_true in Hreg as [st Hst].
  destruct (srel_Some_r _ _ _ _ _ (R_st _ _ HR) Hst) as (m & Hm' & Ty & Rt).
  assert (forall id, lo <= id < hi -> ~ hasc (a_comps aw) t id) as Hfr.
  { intros id Hid. destruct (Hm id Hid) as (H1 & H2 & H3 & _). by apply (wi_bare _ _ _ _ _ _ _ _ _ H n). }
  destruct (batch_spec w aw lo hi t vs HR) as (w' & E & HR'); [by exists m|done|intros id Hid; by apply no_comp, Hfr|].
  unfold entities_attach in E. rewrite bind_assert_true in E by (by apply Nat.eqb_eq). rewrite E. cbn [snd].
  assert (a_next (a_batch lo hi t vs aw) = a_next aw /\ a_free (a_batch lo hi t vs aw) = a_free aw /\ a_groups (a_batch lo hi t vs aw) = a_groups aw) as (En & Ef & Eg) by (unfold a_batch; by destruct (lo <? hi)).
  pose proof (batch_comp aw t m lo hi vs Hm' Hl) as Hc. exists (a_batch lo hi t vs aw). revert HR' En Ef Eg Hc. generalize (a_batch lo hi t vs aw). intros aw' HR' En Ef Eg Hc.
  assert (forall x, live aw' x <-> live aw x) as El by (intros x; unfold live, allocated; by rewrite En, Ef).
  assert (forall u x, ~ (u = t /\ lo <= x < hi) -> hasc (a_comps aw') u x <-> hasc (a_comps aw) u x) as Hu.
  { intros u x Hne. change (is_Some (comp aw' u x) <-> is_Some (comp aw u x)). by rewrite Hc, decide_False. }
  eapply WI_frame; [done|done|..].
  - intros k x _ Hx. apply El. exact (wi_own _ _ _ _ _ _ _ _ _ H k x Hx).
  - intros x _. apply El.
  - intros x Hx. destruct (mine_same γ w aw n H x Hx) as (A & B & C). split; [by apply El|done].
  - intros i ag Hi. rewrite Eg in Hi. exists ag. split; [done|]. split; [done|]. intros x. by right; right.
  - intros u x. destruct (decide (u = t /\ lo <= x < hi)) as [[-> Hx]|Hne]; [left; left; by apply Hm|]. right. rewrite Hc, decide_False by done. done.
  - intros i ag x Hi Hb Hx. rewrite Eg in Hi. apply both_has_iff in Hb as [Ha Hb].
    assert (~ ((ag_a ag = t \/ ag_b ag = t) /\ lo <= x < hi)) as Hne.
    { intros [Hty Hx']. destruct (Hm x Hx') as (M1 & M2 & M3 & M4). destruct (M4 i (ag_kind ag) (ag_a ag) (ag_b ag)) as (N1 & N2 & N3); [rewrite (sh_groups _ _ Hs i); by apply (R_head w aw i ag)|done|].
      assert (forall u, u = ag_a ag \/ u = ag_b ag -> ~ common u x) as Hco.
      { intros u Hu' [Hsh|[_ Hun]]; [apply (wi_sh _ _ _ _ _ _ _ _ _ H) in M1; congruence|]. pose proof (R_head w aw i ag HR Hi) as Hh. rewrite <- (sh_groups _ _ Hs i) in Hh.
        destruct (Hun i _ _ _ Hh). destruct Hu'; congruence. }
      destruct Hty as [Hty|Hty].
      - apply Hu in Hb; [|intros [? _]; congruence]. by apply (wi_bare _ _ _ _ _ _ _ _ _ H n) in Hb; auto.
      - apply Hu in Ha; [|intros [? _]; congruence]. by apply (wi_bare _ _ _ _ _ _ _ _ _ H n) in Ha; auto. }
    apply Hu in Ha; [|intros [? ?]; apply Hne; auto]. apply Hu in Hb; [|intros [? ?]; apply Hne; auto].
    destruct (wi_all _ _ _ _ _ _ _ _ _ H i ag x Hi) as [?|Ho]; [by apply both_has_iff|done|by left|]. right. eapply owes_upd; [done|]. intros Hx'. by apply idle_owes in Hx'.
  - destruct (wi_ghost _ _ _ _ _ _ _ _ _ H n) as (K & S & D). split; [|split].
    + intros x Hx. destruct (K x Hx). split; [done|]. by apply El.
    + intros Hcl u x Hx Hco Hd. cbn [with_has with_bare g_mine g_has g_do] in *. rewrite Hc. unfold fill_has. case_decide; [done|]. by apply S.
    + cbn [with_has with_bare g_mine g_has g_do] in *. destruct Hg as [->|(u & x & ->)]; [done|]. by left.
  - intros Hcl u x Hk Hnl. rewrite Hu; [apply (wi_dead _ _ _ _ _ _ _ _ _ H Hcl); [done|by rewrite <- El]|]. intros [-> Hx]. apply Hnl, El. apply (wi_own _ _ _ _ _ _ _ _ _ H n). by apply Hm.
  - intros u x Hk Hnl. assert (~ allocated aw x) as Hnl' by (unfold allocated in *; by rewrite <- En). rewrite Hu; [by apply (wi_new _ _ _ _ _ _ _ _ _ H)|].
    intros [-> Hx]. apply Hnl'. apply (wi_own _ _ _ _ _ _ _ _ _ H n). by apply Hm.
  - intros u x [Hf Hb]%andb_true_iff Hx Hco. rewrite Hu; [by apply (wi_bare _ _ _ _ _ _ _ _ _ H n)|]. intros [-> Hx'].
    rewrite Nat.eqb_refl, (proj2 (Nat.leb_le lo x)), (proj2 (Nat.ltb_lt x hi)) in Hf by lia. done.
Qed.

(** one group changed by its own lists *)
Lemma mem_frame w aw γ n i ag mem' : WI γ w aw -> a_groups aw !! i = Some ag ->
  (forall x, x ∈ g_mine (γ n) \/ shared x = true \/ (x ∈ mem' <-> x ∈ ag_mem ag)) ->
  forall j ag', <[i := AG (ag_kind ag) (ag_a ag) (ag_b ag) mem' (ag_fresh ag)]> (a_groups aw) !! j = Some ag' ->
  exists ag0, a_groups aw !! j = Some ag0 /\ ag_a ag' = ag_a ag0 /\ ag_b ag' = ag_b ag0 /\ ag_fresh ag' = ag_fresh ag0 /\
    (if decide (i = j) then ag0 = ag /\ ag_mem ag' = mem' else ag' = ag0) /\
    forall x, x ∈ g_mine (γ n) \/ shared x = true \/ (x ∈ ag_mem ag' <-> x ∈ ag_mem ag0).
Proof.
  intros H Hag Hx j ag' Hj. assert (i < length (a_groups aw)) as Hlt by by eapply lookup_lt_Some. destruct (decide (i = j)) as [<-|Hne].
  - rewrite list_lookup_insert in Hj by done. injection Hj as <-. exists ag. simpl. done.
  - rewrite list_lookup_insert_ne in Hj by done. exists ag'. do 5 (split; [done|]). intros x. by right; right.
Qed.

Lemma WI_add γ n w aw t i e todo : same_shape w0 w -> WI γ w aw -> g_do (γ n) = DIn t e (i :: todo) ->
  exists aw', WI (upd γ n (with_do (DIn t e todo) (γ n))) (run_group_at i (full_add e) (part_add e) (non_add e) w).2 aw'.
Proof.
  intros Hs H Hg. pose proof (wi_R _ _ _ _ _ _ _ _ _ H) as HR. pose proof (wi_ghost _ _ _ _ _ _ _ _ _ H n) as (_ & _ & Hn). rewrite Hg in Hn. simpl in Hn. destruct Hn as [[=]|Hn].
  assert (forall aw', (forall x, live aw x -> live aw' x) -> (forall t e, comp aw' t e = comp aw t e) -> gwf aw' (with_do (DIn t e todo) (γ n))) as Hgw.
  { intros aw' Hl Hcm. eapply gwf_in; [done|done|by right|done|done|done|]. eapply sees_do; [done| |done]. intros x G T E. congruence. }
  destruct (w_groups w !! i) as [gr|] eqn:Hgr.
  2:{ unfold run_group_at. rewrite Hgr. exists aw. eapply WI_frame; [done|done|..].
      - intros k x _ Hx. exact (wi_own _ _ _ _ _ _ _ _ _ H k x Hx).
      - done.
      - exact (mine_same γ w aw n H).
      - intros j ag Hi. exists ag. split; [done|]. split; [done|]. intros x. by right; right.
      - intros u x. by right.
      - intros j ag x Hj Hb Hx. destruct (wi_all _ _ _ _ _ _ _ _ _ H j ag x Hj Hb Hx) as [?|Ho]; [by left|]. right. eapply owes_upd; [done|].
        unfold owes. rewrite Hg. simpl. intros [-> Hin]. split; [done|]. apply elem_of_cons in Hin as [->|Hin]; [|done].
        apply lookup_lt_Some in Hj. apply lookup_ge_None in Hgr. rewrite (Forall2_length _ _ _ (R_gr _ _ HR)) in Hgr. lia.
      - by apply Hgw.
      - apply H.
      - apply H.
      - exact (wi_bare _ _ _ _ _ _ _ _ _ H n). }
  destruct (Forall2_lookup_l _ _ _ _ _ (R_gr _ _ HR) Hgr) as (ag & Hag & Hok).
  destruct (run_add w _ _ i gr ag e (R_st _ _ HR) Hgr Hok) as (cs' & g' & E & Hpost). rewrite E. cbn [snd].
  set (mem' := if both_has (a_comps aw) (ag_a ag) (ag_b ag) e then {[e]} ∪ ag_mem ag else ag_mem ag) in *.
  assert (GI cs' (<[i := g']> (w_groups w)) (a_comps aw) (a_slots aw) (<[i := AG (ag_kind ag) (ag_a ag) (ag_b ag) mem' (ag_fresh ag)]> (a_groups aw))) as G.
  { eapply GI_step; [by apply R_GI|done|done|]. intros j h _ Hj Hf. by rewrite (wi_fresh _ _ _ _ _ _ _ _ _ H j h Hj) in Hf. }
  exists (a_set_groups (<[i := AG (ag_kind ag) (ag_a ag) (ag_b ag) mem' (ag_fresh ag)]> (a_groups aw)) aw).
  pose proof (mem_frame w aw γ n i ag mem' H Hag) as HX. feed specialize HX.
  { intros x. destruct (decide (x = e)) as [->|Hne]; [destruct Hn; auto|]. right; right. unfold mem'. destruct (both_has _ _ _ e); [|done]. set_solver. }
  eapply WI_frame; [done|..]; simpl.
  - split; simpl; try apply HR; apply G.
  - intros k x _ Hx. exact (wi_own _ _ _ _ _ _ _ _ _ H k x Hx).
  - done.
  - exact (mine_same γ w aw n H).
  - intros j ag' Hj. destruct (HX j ag' Hj) as (ag0 & H0 & _ & _ & Hf & _ & Hx). eauto.
  - intros u x. by right.
  - intros j ag' x Hj Hb Hx. destruct (HX j ag' Hj) as (ag0 & H0 & Ea & Eb & _ & Hd & _). rewrite Ea, Eb in Hb.
    assert (x ∈ ag_mem ag0 -> x ∈ ag_mem ag') as Hin.
    { destruct (decide (i = j)) as [<-|]; [destruct Hd as [-> ->]|by subst]. unfold mem'. destruct (both_has _ _ _ e); set_solver. }
    destruct (wi_all _ _ _ _ _ _ _ _ _ H j ag0 x H0 Hb) as [?|Ho]; [intros Hx'; apply Hx; auto|by left|]. right. eapply owes_upd; [done|].
    unfold owes. rewrite Hg. simpl. intros [-> Hi]. split; [done|]. apply elem_of_cons in Hi as [->|Hi]; [|done]. exfalso. apply Hx.
    rewrite decide_True in Hd by done. destruct Hd as [-> ->]. unfold mem'. rewrite Hb. set_solver.
  - by apply Hgw.
  - apply H.
  - apply H.
  - exact (wi_bare _ _ _ _ _ _ _ _ _ H n).
Qed.

Lemma WI_leave γ n w aw t i e gone : same_shape w0 w -> WI γ w aw -> e ∈ g_mine (γ n) -> outs (γ n) t e gone -> with_ty t i = true ->
  exists aw', WI (upd γ n (with_do (DOut t e (i :: gone)) (γ n))) (run_group_at i (full_remove e) (part_remove e) (non_remove e) w).2 aw'.
Proof.
  intros Hs H Hown Hg Ht. pose proof (wi_R _ _ _ _ _ _ _ _ _ H) as HR. pose proof (wi_ghost _ _ _ _ _ _ _ _ _ H n) as (K & S & D).
  assert (forall aw', (forall t e, comp aw' t e = comp aw t e) -> sees aw' (with_do (DOut t e (i :: gone)) (γ n))) as Hsee.
  { intros aw' Hcm. eapply sees_do; [done| |done]. intros x G T E. destruct Hg as [Hg|[Hg _]]; [congruence|by apply (idle_not_rem _ x) in E]. }
  assert (forall j x, owes (γ n) j x -> owes_do (DOut t e (i :: gone)) j x) as Ho.
  { intros j x Hj. destruct Hg as [Hg|[Hi ->]]; [|by apply idle_owes in Hj]. unfold owes in Hj. rewrite Hg in Hj. destruct Hj as [-> Hj]. split; [done|]. by right. }
  assert (forall j, j ∈ gone -> with_ty t j = true /\ forall ag, a_groups aw !! j = Some ag -> e ∉ ag_mem ag) as Hgone.
  { intros j Hj. destruct Hg as [Hg|[_ ->]]; [|by apply elem_of_nil in Hj]. rewrite Hg in D. destruct D as [_ D]. auto. }
  destruct (w_groups w !! i) as [gr|] eqn:Hgr.
  2:{ unfold run_group_at. rewrite Hgr. exists aw. apply WI_owe; [done|done|]. split; [done|]. split; [by apply Hsee|]. split; [done|]. intros j [->|Hj]%elem_of_cons; [|by apply Hgone].
      split; [done|]. intros ag Hag. apply lookup_lt_Some in Hag. apply lookup_ge_None in Hgr. rewrite (Forall2_length _ _ _ (R_gr _ _ HR)) in Hgr. lia. }
  destruct (Forall2_lookup_l _ _ _ _ _ (R_gr _ _ HR) Hgr) as (ag & Hag & Hok).
  destruct (run_remove w _ _ i gr ag e (R_st _ _ HR) Hgr Hok) as (cs' & g' & E & Hpost). rewrite E. cbn [snd].
  assert (GI cs' (<[i := g']> (w_groups w)) (a_comps aw) (a_slots aw) (<[i := AG (ag_kind ag) (ag_a ag) (ag_b ag) (ag_mem ag ∖ {[e]}) (ag_fresh ag)]> (a_groups aw))) as G.
  { eapply GI_step; [by apply R_GI|done|done|]. intros j h _ Hj Hf. by rewrite (wi_fresh _ _ _ _ _ _ _ _ _ H j h Hj) in Hf. }
  exists (a_set_groups (<[i := AG (ag_kind ag) (ag_a ag) (ag_b ag) (ag_mem ag ∖ {[e]}) (ag_fresh ag)]> (a_groups aw)) aw).
  pose proof (mem_frame w aw γ n i ag (ag_mem ag ∖ {[e]}) H Hag) as HX. feed specialize HX.
  { intros x. destruct (decide (x = e)) as [->|Hne]; [auto|]. right; right. set_solver. }
  eapply WI_frame; [done|..]; simpl.
  - split; simpl; try apply HR; apply G.
  - intros k x _ Hx. exact (wi_own _ _ _ _ _ _ _ _ _ H k x Hx).
  - done.
  - exact (mine_same γ w aw n H).
  - intros j ag' Hj. destruct (HX j ag' Hj) as (ag0 & H0 & _ & _ & Hf & _ & Hx). eauto.
  - intros u x. by right.
  - intros j ag' x Hj Hb Hx. destruct (HX j ag' Hj) as (ag0 & H0 & Ea & Eb & _ & Hd & _). rewrite Ea, Eb in Hb.
    destruct (decide (x ∈ ag_mem ag0)) as [Hx0|Hx0].
    + destruct (decide (i = j)) as [<-|]; [destruct Hd as [-> Hd]|by subst]. rewrite Hd in Hx. destruct (decide (x = e)) as [->|Hne]; [|destruct Hx; apply elem_of_difference; split; [done|by intros ?%elem_of_singleton]].
      right. exists n. rewrite upd_same. split; [done|left].
    + destruct (wi_all _ _ _ _ _ _ _ _ _ H j ag0 x H0 Hb Hx0) as [?|Hm]; [by left|]. right. eapply owes_upd; [done|apply Ho].
  - split; [done|]. split; [by apply Hsee|]. split; [done|]. intros j Hj. split.
    { apply elem_of_cons in Hj as [->|Hj]; [done|by apply Hgone]. }
    simpl. intros ag' Hag'. destruct (HX j ag' Hag') as (ag0 & H0 & _ & _ & _ & Hd & _). destruct (decide (i = j)) as [<-|Hne]; [destruct Hd as [_ ->]; intros [_ Hx]%elem_of_difference; apply Hx; by apply elem_of_singleton|].
    subst ag'. apply elem_of_cons in Hj as [->|Hj]; [done|]. by eapply Hgone.
  - apply H.
  - apply H.
  - exact (wi_bare _ _ _ _ _ _ _ _ _ H n).
Qed.
(** one component gone *)
Definition shed aw t e m : aworld V := AW (a_next aw) (a_free aw) (<[t := delete e m]> (a_comps aw)) (fun u => if decide (u = t) then a_slots aw t else a_slots aw u) (a_groups aw) (a_res aw).
Lemma shed_comp aw t e m : a_comps aw !! t = Some m -> forall u x, comp (shed aw t e m) u x = if decide (u = t /\ x = e) then None else comp aw u x.
Proof.
  intros Hm u x. unfold comp, shed. cbn [a_comps]. destruct (decide (u = t)) as [->|Hu].
  - rewrite lookup_insert, Hm. simpl. destruct (decide (x = e)) as [->|Hne].
    + by rewrite lookup_delete, decide_True.
    + rewrite lookup_delete_ne, decide_False by naive_solver. done.
  - rewrite lookup_insert_ne, decide_False by naive_solver. done.
Qed.
Lemma shed_has aw t e m : a_comps aw !! t = Some m -> forall u x, hasc (a_comps (shed aw t e m)) u x <-> hasc (a_comps aw) u x /\ ~ (u = t /\ x = e).
Proof.
  intros Hm u x. unfold hasc. simpl. destruct (decide (u = t)) as [->|Hu].
  - rewrite lookup_insert, Hm. simpl. destruct (decide (x = e)) as [->|Hne].
    + rewrite lookup_delete. split; [by intros [? ?]|]. intros [_ H]. by destruct H.
    + rewrite lookup_delete_ne by done. split; [|tauto]. intros H. split; [done|]. by intros [_ ?].
  - rewrite lookup_insert_ne by done. split; [|tauto]. intros H. split; [done|]. by intros [? _].
Qed.
Lemma R_shed w aw t e st m s' i el : R w aw -> w_comps w !! t = Some st -> a_comps aw !! t = Some m -> ss_rep (st_set st) m (a_slots aw t) ->
  ss_rep s' (delete e m) (a_slots aw t) -> ss_get_index (st_set st) e = Some i ->
  entities s' = take (length (entities (st_set st)) - 1) (<[i := el]> (entities (st_set st))) ->
  (forall j ag, a_groups aw !! j = Some ag -> ag_fresh ag = false) ->
  (forall j ag, a_groups aw !! j = Some ag -> ag_types ag t = true -> e ∉ ag_mem ag) ->
  R (set_comps (<[t := St (st_ty st) s']> (w_comps w)) w) (shed aw t e m).
Proof.
  intros HR Hst Hm Rt Rs' Hi En Hf Hnot. split; simpl; try apply HR.
  - destruct (srel_Some_r _ _ _ _ _ (R_st _ _ HR) Hst) as (m' & Hm' & Ty & _). by eapply srel_insert; [apply HR| |].
  - apply Forall2_same_length_lookup. split; [by eapply Forall2_length; apply HR|]. intros j g ag Hj Hag.
    assert (gok (w_comps w) g ag) as Hok. { destruct (Forall2_lookup_lr _ _ _ _ _ _ (R_gr _ _ HR) Hj Hag). by split. }
    destruct (ag_types ag t) eqn:Ht.
    + eapply gok_remove_nonmember; [apply HR|done|done|exact Rt|exact Rs'|eauto|by eapply Hnot|]. intros Hx. by rewrite (Hf j ag Hag) in Hx.
    + rewrite <- (agroup_eta ag). eapply gok_change; [done|done|]. intros u su Hu Hsu. exists su. rewrite lookup_insert_ne; [done|]. intros ->. congruence.
Qed.

Lemma WI_take γ n w aw t e gone : same_shape w0 w -> WI γ w aw -> may_detach w0 kept (g_mine (γ n)) t e -> outs (γ n) t e gone -> (forall i, i ∈ listed t 0 N -> i ∈ gone) ->
  exists aw', WI (upd γ n (with_do DNone (with_has (set_has t e None (g_has (γ n))) (γ n)))) (storage_mut t (ss_remove e) w).2 aw'.
Proof.
  intros Hs H Hm Hg Hall. pose proof (wi_R _ _ _ _ _ _ _ _ _ H) as HR. pose proof (wi_ghost _ _ _ _ _ _ _ _ _ H n) as (K & S & D).
  assert (forall j ag, a_groups aw !! j = Some ag -> ag_types ag t = true -> e ∉ ag_mem ag) as Hnot.
  { intros j ag Hj Ht. pose proof (WI_listed w aw j ag t Hs HR Hj Ht) as Hl.
    destruct Hg as [Hg|[_ ->]].
    - rewrite Hg in D. destruct D as [_ Hn]. destruct (Hn j (Hall j Hl)) as [_ Hx]. auto.
    - apply Hall in Hl. by apply elem_of_nil in Hl. }
  assert (forall j ag x, a_groups aw !! j = Some ag -> owes (γ n) j x -> x = e /\ ag_types ag t = true) as Hown.
  { intros j ag x Hj Ho. destruct Hg as [Hg|[Hi _]]; [|by apply idle_owes in Ho]. unfold owes in Ho. rewrite Hg in D, Ho. destruct D as [_ Hn]. destruct Ho as [-> Ho].
    split; [done|]. destruct (Hn j Ho) as [Ht _]. by rewrite (WI_ty w aw j ag t Hs HR Hj) in Ht. }
  assert (forall aw', R w aw' \/ True -> forall w', R w' aw' -> a_next aw' = a_next aw -> a_groups aw' = a_groups aw -> (forall x, live aw' x <-> live aw x) ->
    (forall u x, comp aw' u x = if decide (u = t /\ x = e) then None else comp aw u x) -> exists aw', WI (upd γ n (with_do DNone (with_has (set_has t e None (g_has (γ n))) (γ n)))) w' aw') as HA.
  { intros aw' _ w' HR' Enx Eg El Hco.
    assert (forall u x, hasc (a_comps aw') u x <-> hasc (a_comps aw) u x /\ ~ (u = t /\ x = e)) as Hac.
    { intros u x. change (is_Some (comp aw' u x) <-> is_Some (comp aw u x) /\ ~ (u = t /\ x = e)). rewrite Hco. case_decide; [|tauto]. split; [by intros [? ?]|tauto]. }
    exists aw'. eapply WI_frame; [done|done|..].
    - intros k x _ Hx. apply El. exact (wi_own _ _ _ _ _ _ _ _ _ H k x Hx).
    - intros x _. apply El.
    - intros x Hx. destruct (mine_same γ w aw n H x Hx) as (A & B & C). split; [by apply El|done].
    - intros i ag Hi. rewrite Eg in Hi. exists ag. split; [done|]. split; [done|]. intros x. by right; right.
    - intros u x. destruct (decide (u = t /\ x = e)) as [[-> ->]|Hne]; [left; destruct Hm as [?|?]; [by left|by right; right]|]. right. rewrite Hco, decide_False by done. done.
    - intros i ag x Hi Hb Hx. rewrite Eg in Hi. apply both_has_iff in Hb as [Ha Hb]. apply Hac in Ha as [Ha Ha'], Hb as [Hb Hb'].
      destruct (wi_all _ _ _ _ _ _ _ _ _ H i ag x Hi) as [?|Ho]; [by apply both_has_iff|done|by left|]. right. eapply owes_upd; [done|]. intros Ho'. exfalso.
      destruct (Hown i ag x Hi Ho') as [-> Ht]. unfold ag_types in Ht. apply orb_true_iff in Ht as [Ht|Ht]; apply Nat.eqb_eq in Ht; auto.
    - split; [|split; [|done]].
      { intros x Hx. destruct (K x Hx). split; [done|]. by apply El. }
      intros Hcl u x Hx Hn _. cbn [with_do with_has g_mine g_has] in *. rewrite Hco. unfold set_has. case_decide; [done|]. apply S; [done|done|done|].
      intros G T E. destruct Hg as [Hg|[Hg _]]; [congruence|by apply (idle_not_rem _ x) in E].
    - intros Hc u x Hk Hl Hu. apply Hac in Hu as [Hu _]. eapply (wi_dead _ _ _ _ _ _ _ _ _ H Hc); [done| |done]. by rewrite <- El.
    - intros u x Hk Hl Hu. apply Hac in Hu as [Hu _]. eapply (wi_new _ _ _ _ _ _ _ _ _ H); [done| |done]. unfold allocated in *. by rewrite <- Enx.
    - intros u x Hb Hx Hk Hu. apply Hac in Hu as [Hu _]. by apply (wi_bare _ _ _ _ _ _ _ _ _ H n) in Hu. }
  assert (forall w', w' = w -> ~ hasc (a_comps aw) t e -> exists aw', WI (upd γ n (with_do DNone (with_has (set_has t e None (g_has (γ n))) (γ n)))) w' aw') as Hsame.
  { intros w' -> Hn. apply (HA aw); [by right|done|done|done|done|]. intros u x. case_decide as Hd; [|done]. destruct Hd as [-> ->]. by apply no_comp. }
  unfold storage_mut. destruct (w_comps w !! t) as [st|] eqn:Hst.
  2:{ apply Hsame; [done|]. pose proof (R_st _ _ HR t) as Ss. rewrite Hst in Ss. unfold hasc. destruct (a_comps aw !! t); [done|]. by intros [? ?]. }
  destruct (srel_Some_r _ _ _ _ _ (R_st _ _ HR) Hst) as (m & Hm' & Ty & Rt). rewrite Ty, Nat.eqb_refl.
  destruct (m !! e) as [v|] eqn:Hv.
  2:{ apply Hsame; [|unfold hasc; rewrite Hm'; simpl; rewrite Hv; by intros [? ?]]. rewrite (remove_rep_None _ _ _ _ Rt Hv).
      assert (St t (st_set st) = st) as Est by (destruct st; simpl in *; congruence).
      case_decide; cbn [snd]; rewrite Est, (insert_id (w_comps w) t st Hst); by destruct w. }
  destruct (remove_rep e _ _ _ v Rt Hv) as (s' & i & el & Es & Rs' & Hi & Hel & En). rewrite Es. cbn [snd]. replace (St t s') with (St (st_ty st) s') by (by rewrite Ty).
  apply (HA (shed aw t e m)); [by right| |done|done|done|by apply shed_comp].
  eapply R_shed; [done..|exact (wi_fresh _ _ _ _ _ _ _ _ _ H)|done].
Qed.

Lemma WI_drop γ n w aw t e G T : same_shape w0 w -> WI γ w aw -> g_do (γ n) = DRem e G T -> (forall i, i < N -> G !! i = Some false) -> T !! t = Some true ->
  exists aw', WI (upd γ n (with_do (DRem e G (<[t := false]> T)) (γ n))) (dyn_mut t (cs_remove e) w).2 aw'.
Proof.
  intros Hs H Hg HG HT. pose proof (wi_R _ _ _ _ _ _ _ _ _ H) as HR. pose proof (wi_ghost _ _ _ _ _ _ _ _ _ H n) as (K & S & D). rewrite Hg in D.
  destruct D as (He & Hk & Hni & Kg & Kt). pose proof (proj2 (Kt t true HT) eq_refl) as Hc. unfold hasc in Hc.
  destruct (a_comps aw !! t) as [m|] eqn:Hm; [|by destruct Hc]. destruct Hc as [v Hv]. simpl in Hv.
  destruct (srel_Some _ _ _ _ _ (R_st _ _ HR) Hm) as (st & Hst & Ty & Rt).
  destruct (cs_remove_rep e _ _ _ v Rt Hv) as (s' & i & el & Es & Rs' & Hi & Hel & En).
  unfold dyn_mut. rewrite Hst, Es. cbn [snd]. exists (shed aw t e m).
  assert (forall j ag, a_groups aw !! j = Some ag -> e ∉ ag_mem ag) as Hnot.
  { intros j ag Hj Hx. apply (Kg j false) in Hx; [done|apply HG; by eapply WI_lt|done]. }
  pose proof (shed_has aw t e m Hm) as Hac.
  eapply WI_frame; [done|eapply R_shed; [done..|exact (wi_fresh _ _ _ _ _ _ _ _ _ H)|intros j ag Hj _; by eapply Hnot]|..]; simpl.
  - intros k x _ Hx. exact (wi_own _ _ _ _ _ _ _ _ _ H k x Hx).
  - done.
  - exact (mine_same γ w aw n H).
  - intros j ag Hj. exists ag. split; [done|]. split; [done|]. intros x. by right; right.
  - intros u x. destruct (decide (x = e)) as [->|Hne]; [by left; left|]. right. rewrite (shed_comp aw t e m Hm u x), decide_False by naive_solver. done.
  - intros j ag x Hj Hb Hx. apply both_has_iff in Hb as [Ha Hb]. apply (Hac (ag_a ag)) in Ha as [Ha _]. apply (Hac (ag_b ag)) in Hb as [Hb _].
    destruct (wi_all _ _ _ _ _ _ _ _ _ H j ag x Hj) as [?|Ho]; [by apply both_has_iff|done|by left|]. right. eapply owes_upd; [done|]. unfold owes. by rewrite Hg.
  - split; [done|]. split.
    { eapply sees_do; [done|intros x G' T' E; rewrite Hg in E; injection E as -> _ _; eauto|]. intros u x Hx. rewrite (shed_comp aw t e m Hm u x), decide_False; [done|]. intros [_ ->]. by eapply Hx. }
    simpl. do 4 (split; [done|]). intros u b Hu. rewrite (Hac u e). destruct (decide (t = u)) as [<-|Hne].
    + rewrite lookup_insert in Hu. injection Hu as <-. split; [|done]. intros [_ Hx]. by destruct Hx.
    + rewrite lookup_insert_ne in Hu by done. rewrite <- (Kt u b Hu). split; [tauto|]. intros Hx. split; [done|]. by intros [<- _].
  - intros Hcl u x Hkx Hl Hu. apply (Hac u x) in Hu as [Hu _]. by eapply (wi_dead _ _ _ _ _ _ _ _ _ H Hcl).
  - intros u x Hkx Hl Hu. apply (Hac u x) in Hu as [Hu _]. by eapply (wi_new _ _ _ _ _ _ _ _ _ H).
  - intros u x Hb Hx Hkx Hu. apply (Hac u x) in Hu as [Hu _]. by eapply (wi_bare _ _ _ _ _ _ _ _ _ H n).
Qed.

Lemma WI_owned w aw i ag t : same_shape w0 w -> R w aw -> a_groups aw !! i = Some ag -> owned_by w0 i t = ag_owns ag t.
Proof. intros Hs H Hi. unfold owned_by, ag_owns. rewrite (sh_groups _ _ Hs i), (R_head w aw i ag H Hi). done. Qed.
Lemma WI_kill γ n w aw i e G : same_shape w0 w -> WI γ w aw -> g_do (γ n) = DRem e G ∅ -> i < N -> G !! i = Some true -> (forall j, j < i -> G !! j = Some false) ->
  exists aw', WI (upd γ n (with_do (DRem e (<[i := false]> G) ∅) (γ n))) (run_group_at i
      (full_remove e >>! on_a (cs_remove e) >>! on_b (cs_remove e))
      (part_remove e >>! on_a (cs_remove e)) (non_remove e) w).2 aw'.
Proof.
  intros Hs H Hg HN Hi Hlt. pose proof (wi_R _ _ _ _ _ _ _ _ _ H) as HR. pose proof (wi_ghost _ _ _ _ _ _ _ _ _ H n) as (K & S & D). rewrite Hg in D.
  destruct D as (He & Hk & Hni & Kg & Kt).
  assert (exists gr, w_groups w !! i = Some gr) as [gr Hgr].
  { apply lookup_lt_is_Some_2. pose proof (shape_len _ _ Hs). unfold n_groups in *. lia. }
  destruct (Forall2_lookup_l _ _ _ _ _ (R_gr _ _ HR) Hgr) as (ag & Hag & Hok).
  assert (e ∈ ag_mem ag) as Hin by (by apply (Kg i true Hi)).
  destruct (run_delete w _ _ i gr ag e (R_st _ _ HR) Hgr Hok Hin) as (cs' & g' & E & Dp). rewrite E. cbn [snd].
  set (ags1 := <[i := AG (ag_kind ag) (ag_a ag) (ag_b ag) (ag_mem ag ∖ {[e]}) (ag_fresh ag)]> (a_groups aw)).
  pose proof (mem_frame w aw γ n i ag (ag_mem ag ∖ {[e]}) H Hag) as HX. feed specialize HX.
  { intros x. destruct (decide (x = e)) as [->|Hne]; [auto|]. right; right. set_solver. }
  assert (forall u x, hasc (del_owned ag e (a_comps aw)) u x <-> hasc (a_comps aw) u x /\ ~ (ag_owns ag u = true /\ x = e)) as Hac.
  { intros u x. unfold hasc. rewrite del_owned_lookup. destruct (ag_owns ag u); [|split; [intros Hx; split; [done|by intros [? _]]|tauto]]. destruct (a_comps aw !! u) as [m|]; simpl; [|split; [by intros [? ?]|by intros [[? ?] _]]].
    destruct (decide (x = e)) as [->|Hne].
    + rewrite lookup_delete. split; [by intros [? ?]|]. intros [_ Hx]. by destruct Hx.
    + rewrite lookup_delete_ne by done. split; [|by intros [? _]]. intros Hx. split; [done|]. by intros [_ ?]. }
  assert (forall u x, x <> e -> comp (AW (a_next aw) (a_free aw) (del_owned ag e (a_comps aw)) (a_slots aw) ags1 (a_res aw)) u x = comp aw u x) as Hco.
  { intros u x Hne. unfold comp. cbn [a_comps]. rewrite del_owned_lookup. destruct (ag_owns ag u); [|done]. destruct (a_comps aw !! u) as [m|]; simpl; [|done]. by rewrite lookup_delete_ne. }
  exists (AW (a_next aw) (a_free aw) (del_owned ag e (a_comps aw)) (a_slots aw) ags1 (a_res aw)).
  pose proof (R_GI _ _ HR) as HGI.
  eapply WI_frame; [done|..]; simpl.
  - split; simpl; try apply HR.
    + apply Dp.
    + apply Forall2_same_length_lookup. split.
      { unfold ags1. rewrite !insert_length. eapply Forall2_length. apply HR. }
      intros j x y Hx Hy. destruct (decide (i = j)) as [->|Hne].
      * unfold ags1 in Hy. rewrite list_lookup_insert in Hy by (by eapply lookup_lt_Some). injection Hy as <-.
        rewrite list_lookup_insert in Hx by (by eapply lookup_lt_Some). injection Hx as <-. apply Dp.
      * unfold ags1 in Hy. rewrite list_lookup_insert_ne in Hx by done. rewrite list_lookup_insert_ne in Hy by done.
        pose proof (Forall2_lookup_lr _ _ _ _ _ _ (R_gr _ _ HR) Hx Hy) as Hoky.
        rewrite <- (agroup_eta y). eapply gok_change; [done|done|].
        intros t st Ht Hst'. destruct (ag_owns ag t) eqn:Ho.
        2:{ exists st. rewrite (dp_frame _ _ _ _ _ _ _ Dp) by done. done. }
        assert (e ∉ ag_mem y) as Hny.
        { intros Hiny. destruct (decide (j < i)) as [Hji|Hji].
          - apply (Kg j false) in Hiny; [done|by apply Hlt|done].
          - destruct (Hni i j t (ag_kind y) (ag_a y) (ag_b y)) as [N1 N2]; [lia|by erewrite WI_owned| |].
            + rewrite (sh_groups _ _ Hs j). by apply (R_head w aw j y).
            + unfold ag_types in Ht. apply orb_true_iff in Ht as [Ht|Ht]; apply Nat.eqb_eq in Ht; congruence. }
        destruct (srel_Some_r _ _ _ _ _ (R_st _ _ HR) Hst') as (m & Hm & _ & Rt).
        destruct (srel_Some _ _ _ t (delete e m) (dp_srel _ _ _ _ _ _ _ Dp)) as (st' & Hst2 & _ & Rt').
        { rewrite del_owned_lookup, Ho, Hm. done. }
        exists st'. split; [done|]. split_and!.
        -- intros Hoy. pose proof (safe_disj _ _ _ _ _ t (gi_safe _ _ _ _ _ HGI) Hne Hag Hy Ho). congruence.
        -- intros x' Hx'. rewrite (rep_elem _ _ _ _ Rt), (rep_elem _ _ _ _ Rt').
           rewrite lookup_delete_ne; [done|]. by intros ->.
        -- intros Hfr. by rewrite (wi_fresh _ _ _ _ _ _ _ _ _ H j y Hy) in Hfr.
    + eapply safe_static; [by apply static_upd|apply HR].
  - intros k x _ Hx. exact (wi_own _ _ _ _ _ _ _ _ _ H k x Hx).
  - done.
  - exact (mine_same γ w aw n H).
  - intros j ag' Hj. destruct (HX j ag' Hj) as (ag0 & H0 & _ & _ & Hf & _ & Hx). eauto.
  - intros u x. destruct (decide (x = e)) as [->|Hne]; [by left; left|]. right. rewrite (Hco u x Hne). done.
  - intros j ag' x Hj Hb Hx. destruct (HX j ag' Hj) as (ag0 & H0 & Ea & Eb & _ & Hd & _). rewrite Ea, Eb in Hb.
    apply both_has_iff in Hb as [Ha Hb]. apply Hac in Ha as [Ha _], Hb as [Hb _].
    destruct (decide (x = e)) as [->|Hne].
    { right. exists n. by rewrite upd_same. }
    destruct (wi_all _ _ _ _ _ _ _ _ _ H j ag0 x H0) as [?|Ho]; [by apply both_has_iff| |by left|].
    + intros Hx0. apply Hx. destruct (decide (i = j)) as [<-|]; [destruct Hd as [-> ->]|by subst]. apply elem_of_difference. split; [done|]. by intros ?%elem_of_singleton.
    + right. eapply owes_upd; [done|]. unfold owes. by rewrite Hg.
  - split; [done|]. split.
    { eapply sees_do; [done|intros x G' T' E'; rewrite Hg in E'; injection E' as -> _ _; eauto|]. intros u x Hx. apply Hco. intros ->. by eapply Hx. }
    simpl. do 3 (split; [done|]). split; [|by intros u b ?%lookup_empty_Some]. intros j b Hj ag' Hag'. simpl in Hag'.
    destruct (HX j ag' Hag') as (ag0 & H0 & _ & _ & _ & Hd & _). destruct (decide (i = j)) as [<-|Hne].
    + rewrite lookup_insert in Hj. injection Hj as <-. destruct Hd as [_ ->]. split; [|done]. intros [_ Hx]%elem_of_difference. destruct Hx. by apply elem_of_singleton.
    + rewrite lookup_insert_ne in Hj by done. subst ag'. by eapply Kg.
  - intros Hcl u x Hkx Hl Hu. apply Hac in Hu as [Hu _]. by eapply (wi_dead _ _ _ _ _ _ _ _ _ H Hcl).
  - intros u x Hkx Hl Hu. apply Hac in Hu as [Hu _]. by eapply (wi_new _ _ _ _ _ _ _ _ _ H).
  - intros u x Hb Hx Hkx Hu. apply Hac in Hu as [Hu _]. by eapply (wi_bare _ _ _ _ _ _ _ _ _ H n).
Qed.

(** ** A piece of work of thread [n] *)
Lemma WI_step γ n w aw lab g' w' : same_shape w0 w -> same_shape w w' -> WI γ w aw -> trans w0 shared kept still clean aw lab (γ n) g' -> moves lab w w' ->
  exists aw', WI (upd γ n g') w' aw'.
Proof.
  intros Hs Hs' H Ht Hm. destruct lab; simpl in Ht; try done; simpl in Hm; try subst w'.
  - exists aw. destruct Ht as [->|(e & G & T & Hi & -> & Hw)]; [by apply WI_quiet|]. apply WI_owe; [done| |done]. intros i x Hx.
    destruct Hi as [Hi|(G0 & T0 & Hi)]; [by apply idle_owes in Hx|]. unfold owes in Hx. by rewrite Hi in Hx.
  - destruct Ht as [Hi ->]. by apply WI_new.
  - destruct Ht as [Hi ->]. by apply WI_alloc.
  - destruct Ht as (G & T & H1 & H2 & H3 & ->). by eapply WI_free.
  - destruct Ht as (H1 & H2 & H3 & ->). by eapply WI_put.
  - destruct Ht as (H1 & H2 & H3 & H4 & ->). by eapply WI_batch.
  - destruct Ht as (H1 & gone & H2 & H3 & ->). by eapply WI_take.
  - destruct Ht as (G & T & H1 & H2 & H3 & ->). by eapply WI_drop.
  - destruct Ht as (t & todo & H1 & ->). by eapply WI_add.
  - destruct Ht as (H1 & t & gone & H2 & H3 & ->). by eapply WI_leave.
  - destruct Ht as (G & H1 & H2 & H3 & H4 & ->). by eapply WI_kill.
  - destruct Ht as [H1 ->]. by eapply WI_write.
  - by eapply WI_set.
Qed.
End apart.

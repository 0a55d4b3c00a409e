(** Threads that keep to [minds] and make nothing but calls: the answers they
    get. *)
From stdpp Require Import prelude list gmap.
From Verif Require Import Base Api ModelSparse ModelEntity ModelGroup ModelWorld ModelQuery ModelStep ModelConc SpecConc
  Spec History SpecApart ProofSparse ProofEntity ProofGroup ProofWorld ProofOps ProofRemove ProofWf ProofMain ProofHistory ProofHistory2 ProofQuery3 ProofQuery4 PropEntity
  ProofConc ProofConc2 ProofConc3 ProofConc4 ProofConc5 ProofConc6 ProofConc7 ProofConc8 ProofConc9 ProofConc10 ProofConc11 ProofEm ProofLin2 ProofApart ProofApart2 ProofApart3.

Section apart.
Context {V : Type}.
Local Notation event := (op V * outcome (out V))%type.
Implicit Types (w : world V) (aw : aworld V) (c : conf V) (cl : client V) (ans l : list event) (ph : phase (V := V)).

(** ** Which entities a program lets go *)
Fixpoint frees (E : nat -> Prop) {A} (p : prog V A) : Prop :=
  match p with
  | PAcq _ _ k | PRel _ _ k => frees E k
  | PAct lab f k => match lab with BFree e => E e | _ => True end /\ forall b, frees E (k b)
  | _ => True
  end.
Lemma frees_bind E {A B} (p : prog V A) (k : A -> prog V B) : frees E p -> (forall a, frees E (k a)) -> frees E (pbind p k).
Proof. intros H Hk. induction p; simpl in *; auto. destruct H as [H1 H2]. auto. Qed.
Lemma frees_rels E {A} hs (p : prog V A) : frees E p -> frees E (rels hs p).
Proof. intros H. induction hs as [|[l x] hs IH]; [done|]. exact IH. Qed.
Lemma frees_pfor E {A} (l : list A) (f : A -> prog V unit) : (forall a, frees E (f a)) -> frees E (pfor l f).
Proof. intros H. induction l; simpl; [done|]. by apply frees_bind. Qed.
Lemma frees_if E {A} (b : bool) (p q : prog V A) : frees E p -> frees E q -> frees E (if b then p else q).
Proof. by destruct b. Qed.
Lemma frees_passert E b : frees E (passert (V := V) b).
Proof. by destruct b. Qed.
Lemma frees_punwrap E {A} (o : option A) : frees E (punwrap (V := V) o).
Proof. by destruct o. Qed.
Lemma frees_find E k a b i m : frees E (p_find_group (V := V) k a b i m).
Proof. revert i. induction m as [|m IH]; intros i; simpl; [done|]. split; [done|]. intros x. by apply frees_if. Qed.
Ltac fr := repeat first [done | apply frees_passert | apply frees_punwrap | apply frees_find | apply frees_if | apply frees_rels | apply frees_bind; [|intros ?]].
Lemma frees_open E q : frees E (p_open (V := V) q).
Proof. induction q; cbn [p_open]; unfold p_ref, p_open_group, p_downcast; fr; try assumption. destruct k; fr. Qed.
Lemma frees_via E lk x lab there o : (forall e, lab <> BFree e) -> frees E (via_guard (V := V) lk x lab there o).
Proof.
  intros H. assert (forall f, frees E (act lab f : prog V (out V))) as Ha. { intros f. split; [|done]. destruct lab; try done. by destruct (H id). }
  unfold via_guard. apply frees_bind; [done|intros b]. apply frees_if; [|done]. apply frees_bind; [done|intros _]. apply frees_bind; [done|intros ?]. by apply frees_bind.
Qed.
Lemma frees_storage E t x : frees E (p_storage (V := V) t x).
Proof. unfold p_storage. fr. Qed.
Lemma frees_group_at E i lab ff fp fn : (forall e, lab <> BFree e) -> frees E (p_group_at (V := V) i lab ff fp fn).
Proof.
  intros H. assert (forall f : world V -> outcome unit * world V, frees E (act lab f)) as Ha. { intros f. split; [|done]. destruct lab; try done. by destruct (H id). }
  unfold p_group_at. apply frees_bind; [done|intros x]. apply frees_bind; [apply frees_punwrap|intros [[k a] b]]. cbn zeta.
  apply frees_bind; [apply frees_storage|intros _]. apply frees_bind; [apply frees_storage|intros _]. by apply frees_bind.
Qed.
Lemma frees_groups E t i m : frees E (p_groups (V := V) t i m).
Proof. revert i. induction m as [|m IH]; intros i; cbn [p_groups]; fr; apply IH. Qed.
Lemma frees_each E gs lab ff fp fn : (forall i e, lab i <> BFree e) -> frees E (p_each_group (V := V) gs lab ff fp fn).
Proof. intros H. unfold p_each_group. apply frees_pfor. intros i. apply frees_bind; [by apply frees_group_at|]. done. Qed.
Ltac fr2 := repeat first [done | apply frees_passert | apply frees_punwrap | apply frees_storage | apply frees_groups | apply frees_find | by apply frees_each | apply frees_if | apply frees_rels | apply frees_bind; [|intros ?] | case_match].
Lemma frees_attach E t id v : frees E (p_handle_attach (V := V) t id v).
Proof. unfold p_handle_attach. fr2. Qed.
Lemma frees_detach E t id : frees E (p_handle_detach (V := V) t id).
Proof. unfold p_handle_detach. fr2. Qed.
Lemma frees_find_in E e i m : frees E (p_find_in (V := V) e i m).
Proof. revert i. induction m as [|m IH]; intros i; cbn [p_find_in]; fr2; apply IH. Qed.
Lemma frees_find_storages E e ord : frees E (p_find_storages (V := V) e ord).
Proof. induction ord as [|t ord IH]; cbn [p_find_storages]; fr2; apply IH. Qed.
Lemma frees_remove (E : nat -> Prop) e ord : E e -> frees E (p_remove (V := V) e ord).
Proof.
  intros He. unfold p_remove. fr2; try apply frees_find_in; try apply frees_find_storages.
  apply frees_pfor. intros t. fr2.
Qed.
Definition removes (o : op V) (e : nat) : Prop := exists ord, o = RemoveEntity e ord.
Lemma frees_call (o : op V) : frees (removes o) (p_call o).
Proof.
  destruct o; cbn [p_call]; unfold p_new_entity, p_new_entities, p_exist, p_entity;
    repeat first [by apply frees_via | done | apply frees_remove; by eexists | apply frees_attach | apply frees_detach | apply frees_open | apply frees_passert | apply frees_if | apply frees_rels | apply frees_bind; [|intros ?] | case_match].
Qed.

(** ** Which entities there are *)
Lemma live_ents w aw e : R w aw -> live aw e <-> e ∈ ents (w_em w).
Proof.
  intros H. pose proof (R_em _ _ H) as He. pose proof (er_elem _ _ _ e He) as X. pose proof (er_nodup _ _ _ He) as ND. apply NoDup_app in ND as (_ & ND & _).
  unfold live, allocated. split.
  - intros [H1 H2]. by destruct (proj2 X H1).
  - intros H1. split; [apply X; by left|by apply ND].
Qed.
Lemma em_live e n free x : em_rel e n free -> x ∈ ents e <-> 1 <= x <= n /\ x ∉ free.
Proof.
  intros He. pose proof (er_elem _ _ _ x He) as X. pose proof (er_nodup _ _ _ He) as ND. apply NoDup_app in ND as (_ & ND & _). split.
  - intros H1. split; [apply X; by left|by apply ND].
  - intros [H1 H2]. by destruct (proj2 X H1).
Qed.
Definition ents_then aw (lab : label V) (was : Prop) (e : nat) : Prop :=
  match lab with BNew => e = newid aw \/ was | BAlloc n => e ∈ seq (S (a_next aw)) n \/ was | BFree x => was /\ e <> x | _ => was end.
Lemma ents_moves lab w w' aw e : R w aw -> moves lab w w' -> (forall x, lab = BFree x -> live aw x) ->
  e ∈ ents (w_em w') <-> ents_then aw lab (e ∈ ents (w_em w)) e.
Proof.
  intros H Hm Hf. pose proof (R_em _ _ H) as He. pose proof (em_live _ _ _ e He) as El.
  destruct lab; cbn [moves effect ents_then] in *; try (subst w'; by rewrite ?keeps_storage, ?keeps_dyn, ?keeps_group).
  - subst w'. destruct (em_allocate_spec _ _ _ He) as (e' & E & He'). unfold on_em. rewrite E. cbn [snd w_em set_em].
    rewrite (em_live _ _ _ e He'), El. unfold newid. pose proof (er_nodup _ _ _ He) as ND. pose proof (fun x => er_elem _ _ _ x He) as Ex. destruct (a_free aw) as [|f fs]; cbn [tail].
    + pose proof (not_elem_of_nil e). split; [|naive_solver lia]. intros [? _]. destruct (decide (e = S (a_next aw))); [by left|right]. split; [lia|done].
    + assert (1 <= f <= a_next aw) by (apply Ex; right; left). apply NoDup_app in ND as (_ & _ & [Hnf _]%NoDup_cons). rewrite not_elem_of_cons. split.
      * intros [? ?]. destruct (decide (e = f)); [by left|right]. done.
      * intros [->|(? & ? & ?)]; done.
  - subst w'. destruct (em_allocate_n_spec _ _ _ n He) as (e' & E & He'). unfold on_em. rewrite E. cbn [snd w_em set_em].
    rewrite (em_live _ _ _ e He'), El, elem_of_seq. split.
    + intros [? ?]. destruct (decide (e <= a_next aw)); [right; split; [lia|done]|left; lia].
    + intros [?|[? ?]]; [|split; [lia|done]]. split; [lia|]. intros Hfr. assert (1 <= e <= a_next aw); [|lia]. apply (er_elem _ _ _ e He). by right.
  - subst w'. destruct (Hf id eq_refl) as [H1 H2]. destruct (em_remove_spec _ _ _ id He H1 H2) as (e' & E & He'). unfold on_em. rewrite E. cbn [snd w_em set_em].
    rewrite (em_live _ _ _ e He'), El, not_elem_of_cons. naive_solver.
  - by rewrite (proj1 Hm).
  - by rewrite (proj1 (proj1 Hm)).
Qed.

Section runs.
Variables (w0 : world V) (shared kept : nat -> bool) (still : bool) (L0 : nat -> nat -> Prop) (clean : Prop).
Hypothesis (Hsk : forall e, shared e = true -> kept e = true).
Hypothesis (Hw0 : forall i k a b, group_head i w0 = Some (k, a, b) -> has_registered a w0 = true /\ has_registered b w0 = true).
Variables (own : nat -> gset nat) (h0 : history V) (pool : nat -> Prop) (N : nat).
Local Notation WI := (WI w0 shared kept still L0 clean).
Local Notation proto := (proto w0 shared kept still L0 clean).
Local Notation post := (post w0 shared kept still clean).
Local Notation common := (common w0 shared kept).
Local Notation as_alone := (as_alone w0 shared kept still).
Local Notation fair := (fair w0).
Local Notation minds := (minds w0 shared kept still).
Local Notation alike := (alike still).

(** an entity is let go by [BFree] only *)
Lemma trans_loses aw lab g g' e : trans w0 shared kept still clean aw lab g g' -> e ∈ g_mine g -> e ∈ g_mine g' \/ lab = BFree e.
Proof.
  intros H He. destruct lab; cbn [trans] in H.
  - left. by destruct H as [->|(e1 & G & T & _ & -> & _)].
  - left. destruct H as [_ ->]. cbn [g_mine learn]. unfold gain. set_solver.
  - left. destruct H as [_ ->]. cbn [g_mine learn]. unfold gain. set_solver.
  - destruct H as (G & T & _ & _ & _ & ->). cbn [g_mine]. destruct (decide (e = id)) as [->|Hne]; [by right|left]. apply elem_of_difference. split; [done|]. by rewrite elem_of_singleton.
  - left. by destruct H as (_ & _ & _ & ->).
  - left. by destruct H as (_ & _ & _ & _ & ->).
  - left. destruct H as (_ & gone & _ & _ & ->). done.
  - left. destruct H as (G & T & _ & _ & _ & ->). done.
  - left. destruct H as (t & todo & _ & ->). done.
  - left. destruct H as (_ & t & gone & _ & _ & ->). done.
  - left. destruct H as (G & _ & _ & _ & _ & ->). done.
  - left. by destruct H as [_ ->].
  - left. destruct o; try done; try (by destruct H as (_ & _ & ->)); try (by destruct H as (_ & ->)); by subst.
Qed.
Lemma trans_gains aw lab g g' e : trans w0 shared kept still clean aw lab g g' -> e ∈ g_mine g' ->
  e ∈ g_mine g \/ lab = BNew /\ e = newid aw \/ exists n, lab = BAlloc n /\ e ∈ seq (S (a_next aw)) n.
Proof.
  intros H He. destruct lab; cbn [trans] in H.
  - left. by destruct H as [->|(e1 & G & T & _ & -> & _)].
  - destruct H as [_ ->]. cbn [g_mine learn] in He. unfold gain in He. apply elem_of_union in He as [He|He]; [by left|right; left].
    apply elem_of_list_to_set, elem_of_list_filter in He as [_ ->%elem_of_list_singleton]. done.
  - destruct H as [_ ->]. cbn [g_mine learn] in He. unfold gain in He. apply elem_of_union in He as [He|He]; [by left|right; right].
    apply elem_of_list_to_set, elem_of_list_filter in He as [_ He]. by exists n.
  - left. destruct H as (G & T & _ & _ & _ & ->). cbn [g_mine] in He. by apply elem_of_difference in He as [? _].
  - left. by destruct H as (_ & _ & _ & ->).
  - left. by destruct H as (_ & _ & _ & _ & ->).
  - left. destruct H as (_ & gone & _ & _ & ->). done.
  - left. destruct H as (G & T & _ & _ & _ & ->). done.
  - left. destruct H as (t & todo & _ & ->). done.
  - left. destruct H as (_ & t & gone & _ & _ & ->). done.
  - left. destruct H as (G & _ & _ & _ & _ & ->). done.
  - left. by destruct H as [_ ->].
  - left. destruct o; try done; try (by destruct H as (_ & _ & ->)); try (by destruct H as (_ & ->)); by subst.
Qed.
Lemma trans_learns aw lab g g' e : trans w0 shared kept still clean aw lab g g' -> shared e = false ->
  (lab = BNew /\ e = newid aw \/ exists n, lab = BAlloc n /\ e ∈ seq (S (a_next aw)) n) -> e ∈ g_mine g'.
Proof.
  intros H Hs [[-> ->]|(n & -> & Hin)]; destruct H as [_ ->]; cbn [g_mine learn]; unfold gain; apply elem_of_union_r, elem_of_list_to_set, elem_of_list_filter; (split; [done|]); [left|done].
Qed.

(** Every entity there is, is somebody's own, or everybody's, or one of the
    [pool] that nobody removes. *)
Record cover (γ : nat -> ghost V) w : Prop := {
  cv_all : forall e, e ∈ ents (w_em w) -> shared e = false -> (exists n, n < N /\ e ∈ g_mine (γ n)) \/ pool e;
  cv_pool : forall e, pool e -> e ∈ ents (w_em w);
  cv_none : forall e n, n < N -> pool e -> e ∉ g_mine (γ n)
}.
Lemma cover_step γ n w aw lab g' w' : n < N -> WI γ w aw -> cover γ w -> trans w0 shared kept still clean aw lab (γ n) g' -> moves lab w w' -> cover (upd γ n g') w'.
Proof.
  intros HN Hw [C1 C2 C3] Ht Hm. pose proof (wi_R _ _ _ _ _ _ _ _ _ Hw) as HR.
  assert (forall x, lab = BFree x -> x ∈ g_mine (γ n)) as Hfree.
  { intros x ->. destruct Ht as (G & T & Hd & _). pose proof (wi_ghost _ _ _ _ _ _ _ _ _ Hw n) as (_ & _ & Hg). rewrite Hd in Hg. apply Hg. }
  assert (forall e, e ∈ ents (w_em w') <-> ents_then aw lab (e ∈ ents (w_em w)) e) as HE.
  { intros e. apply ents_moves; [done|done|]. intros x Hx. exact (wi_own _ _ _ _ _ _ _ _ _ Hw n x (Hfree x Hx)). }
  assert (forall e, ents_then aw lab (e ∈ ents (w_em w)) e -> e ∈ ents (w_em w) /\ lab <> BFree e \/ lab = BNew /\ e = newid aw \/ exists n, lab = BAlloc n /\ e ∈ seq (S (a_next aw)) n) as HX.
  { intros e. destruct lab; cbn [ents_then]; try (intros ?; by left).
    - intros [->|?]; [right; by left|by left].
    - intros [?|?]; [right; right; eauto|by left].
    - intros [? ?]. left. split; [done|]. by intros [= <-]. }
  split.
  - intros e He Hs. apply HE, HX in He as [[He Hnf]|Hnew].
    + destruct (C1 e He Hs) as [(m & HmN & Hm')|]; [|by right]. left. exists m. split; [done|]. destruct (decide (m = n)) as [->|Hne]; [|by rewrite upd_other].
      rewrite upd_same. by destruct (trans_loses _ _ _ _ e Ht Hm') as [?|?].
    + left. exists n. split; [done|]. rewrite upd_same. by eapply trans_learns.
  - intros e He. apply HE. pose proof (C2 e He) as Hin. destruct lab; cbn [ents_then]; try done; try (by right). split; [done|]. intros ->. by eapply (C3 id n); [| |apply Hfree].
  - intros e m HmN He. destruct (decide (m = n)) as [->|Hne]; [|rewrite upd_other by done; by apply C3]. rewrite upd_same. intros Hin.
    pose proof (C2 e He) as Hin2. rewrite <- (live_ents _ _ _ HR) in Hin2. destruct Hin2 as [Hal Hfr]. unfold allocated in Hal.
    destruct (trans_gains _ _ _ _ e Ht Hin) as [?|[[-> Hnew]|(k & -> & Hnew)]]; [by eapply (C3 e n)| |].
    + subst e. unfold newid in *. destruct (a_free aw) as [|f fs]; [lia|]. apply Hfr. left.
    + apply elem_of_seq in Hnew. lia.
Qed.
Definition WX γ w aw : Prop := WI γ w aw /\ cover γ w.
Lemma cover_quiet γ n w : cover γ w -> cover (upd γ n (γ n)) w.
Proof.
  assert (forall m, g_mine (upd γ n (γ n) m) = g_mine (γ m)) as E. { intros m. destruct (decide (m = n)) as [->|?]; [by rewrite upd_same|by rewrite upd_other]. }
  intros [C1 C2 C3]. split; [|done|].
  - intros e H1 H2. destruct (C1 e H1 H2) as [(m & HmN & Hm)|]; [|by right]. left. exists m. by rewrite E.
  - intros e m. rewrite E. apply C3.
Qed.
Lemma WX_quiet γ n w aw : WX γ w aw -> WX (upd γ n (γ n)) w aw.
Proof. intros [H C]. split; [by apply WI_quiet|by apply cover_quiet]. Qed.

(** one step, whoever makes it *)
Lemma one_step i c c' γ aw : i < N -> cinv w0 nolt False c -> cstep i c = Some c' -> WX γ (cf_world c) aw ->
  exists th th', cf_threads c !! i = Some th /\ tstep (holds_of_others i (cf_threads c)) th (cf_world c) = Some (th', cf_world c') /\
    cf_threads c' = <[i := th']> (cf_threads c) /\
    (next_label th = None -> cf_world c' = cf_world c) /\
    forall lab g', next_label th = Some lab -> trans w0 shared kept still clean aw lab (γ i) g' -> exists aw', WX (upd γ i g') (cf_world c') aw'.
Proof.
  intros HN Hc Hs Hw. assert (cinv w0 nolt False c') as Hc' by (by eapply cstep_cinv). pose proof Hs as Hs0.
  unfold cstep in Hs. destruct (cf_threads c !! i) as [th|] eqn:Hi; [|done]. destruct (tstep _ th (cf_world c)) as [[th' w']|] eqn:Et; [|done]. injection Hs as <-.
  exists th, th'. split; [done|]. split; [exact Et|]. split; [done|]. split.
  - intros Hn. eapply (cstep_quiet i c); [|done]. unfold did. by rewrite Hi.
  - intros lab g' Hn Ht. assert (did i c = Some lab) as Ed by (unfold did; by rewrite Hi).
    destruct (cstep_piece _ _ _ i c _ lab Hc Ed Hs0) as (th1 & Hi1 & Hm & _).
    destruct Hw as [Hw Hcv]. edestruct (WI_step w0 shared kept still L0 clean Hsk γ i (cf_world c) aw lab g') as [aw' Hw']; [by apply Hc| |exact Hw|exact Ht|exact Hm|].
    { eapply shape_trans; [apply shape_sym; apply Hc|apply Hc']. }
    exists aw'. split; [exact Hw'|]. by eapply cover_step.
Qed.

(** ** Answers *)
Lemma own_after_snoc mine ans (o : op V) r : own_after shared mine (ans ++ [(o, r)]) = own_next shared (own_after shared mine ans) o r.
Proof. unfold own_after. by rewrite foldl_app. Qed.
(** what the thread knows of its entities (SpecApart.v), after its calls *)
Definition bare_after ans : nat -> nat -> bool := foldl (fun b (ev : event) => bare_next b ev.1 ev.2) knows_nothing ans.
Lemma bare_after_snoc ans (o : op V) r : bare_after (ans ++ [(o, r)]) = bare_next (bare_after ans) o r.
Proof. unfold bare_after. by rewrite foldl_app. Qed.
Lemma own_value_snoc ans (ev : event) t e : own_value h0 (ans ++ [ev]) t e = own_event t e (own_value h0 ans t e) ev.
Proof. unfold own_value. by rewrite foldl_app. Qed.
Lemma own_event_alike t e x y (ev : event) : alike x y -> alike (own_event t e x ev) (own_event t e y ev).
Proof.
  intros H. unfold own_event. case_decide; [apply alike_refl|]. destruct ev as [o r]. unfold comp_event.
  destruct o; try done; destruct r as [[]| | |]; try done; repeat case_match; try done; try apply alike_refl.
  destruct H as [Ha1 Ha2]. split; [by rewrite !fmap_is_Some|]. intros Hs. by rewrite (Ha2 Hs).
Qed.
Lemma as_alone_alike mine val val' (o : op V) r : (forall t e, e ∈ mine -> ~ common t e -> alike (val t e) (val' t e)) ->
  as_alone mine val o r -> as_alone mine val' o r.
Proof.
  intros H Ha.
  assert (forall t e, e ∈ mine -> ~ common t e -> bool_decide (is_Some (val t e)) = bool_decide (is_Some (val' t e))) as HB.
  { intros t e H1 H2. apply bool_decide_ext. by apply H. }
  destruct o; try done; cbn [SpecApart.as_alone] in *; intros Hin Hn; specialize (Ha Hin Hn); specialize (H _ _ Hin Hn); specialize (HB _ _ Hin Hn).
  - rewrite <- HB. case_bool_decide; [|done]. destruct Ha as (x & -> & Hx). exists x. split; [done|]. by eapply alike_trans.
  - destruct Ha as (x & -> & Hx). exists x. split; [done|]. by eapply alike_trans.
  - by rewrite <- HB.
  - by rewrite <- HB.
  - intros Hr. destruct (Ha Hr) as (x & -> & Hx). exists x. split; [done|]. by eapply alike_trans.
  - by rewrite <- HB.
Qed.
(** between calls *)
Definition base (n : nat) (g : ghost V) ans : Prop :=
  idle g /\ g_mine g = own_after shared (own n) ans /\ g_bare g = bare_after ans /\
  (clean -> forall t e, e ∈ g_mine g -> ~ common t e -> alike (g_has g t e) (own_value h0 ans t e)).
(** the answers are right *)
Definition right_answers (n : nat) ans : Prop :=
  forall l o r l', ans = l ++ (o, r) :: l' -> fair (own_after shared (own n) l) o r /\
    (clean -> as_alone (own_after shared (own n) l) (own_value h0 l) o r).
Lemma right_snoc n ans o r : right_answers n ans -> fair (own_after shared (own n) ans) o r ->
  (clean -> as_alone (own_after shared (own n) ans) (own_value h0 ans) o r) -> right_answers n (ans ++ [(o, r)]).
Proof.
  intros H H1 H2 l o' r' l' E. destruct (decide (l' = [])) as [->|Hne].
  - apply app_inj_tail in E as [<- [= <- <-]]. done.
  - destruct (exists_last Hne) as (l2 & ev & ->). rewrite app_comm_cons, app_assoc in E. apply app_inj_tail in E as [E _]. by eapply H.
Qed.
Lemma own_next_in mine (o : op V) r e : e ∈ own_next shared mine o r -> e ∈ mine \/ e ∈ handed_ev (o, r).
Proof.
  intros H. destruct o; try (by left); cbn [own_next handed_ev] in *.
  - destruct r as [[]| | |]; try (by left). unfold gain in H. apply elem_of_union in H as [H|H]; [by left|right]. apply elem_of_list_to_set, elem_of_list_filter in H as [_ H]. done.
  - destruct r as [[]| | |]; try (by left). unfold gain in H. apply elem_of_union in H as [H|H]; [by left|right]. apply elem_of_list_to_set, elem_of_list_filter in H as [_ H]. done.
  - left. by apply elem_of_difference in H as [H _].
Qed.
Lemma base_post n g1 ans o r g' : base n g1 ans -> post g1 o r g' ->
  base n g' (ans ++ [(o, r)]) /\ fair (own_after shared (own n) ans) o r /\ (clean -> as_alone (own_after shared (own n) ans) (own_value h0 ans) o r).
Proof.
  intros (B1 & B2 & Bb & B3) (P1 & P2 & P3 & Pb & P4). split; [|split].
  - split; [done|]. split; [by rewrite own_after_snoc, <- B2|]. split; [by rewrite bare_after_snoc, <- Bb|]. intros Hc t e He Hn. destruct (P4 Hc) as [_ P5].
    pose proof (P5 t e He Hn) as P6. rewrite own_value_snoc. eapply alike_trans; [exact P6|]. rewrite P3 in He. destruct (own_next_in _ _ _ _ He) as [Hin|Hin].
    + apply own_event_alike. by apply B3.
    + unfold own_event. rewrite !decide_True by done. apply alike_refl.
  - by rewrite <- B2.
  - intros Hc. destruct (P4 Hc) as [P5 _]. rewrite <- B2. eapply as_alone_alike; [|exact P5]. by apply B3.
Qed.

(** of what the thread had before the call [o], it still has all but what [o]
    removes *)
Definition retains (o : op V) (g1 g : ghost V) : Prop := forall e, e ∈ g_mine g1 -> ~ removes o e -> e ∈ g_mine g.

(** ** A thread and what is known of it *)
Definition fol (n : nat) cl (g : ghost V) ans ph : Prop :=
  made cl ans /\ calls_only (rest cl ans) /\ minds (own_after shared (own n) ans) (bare_after ans) [] (rest cl ans) /\ right_answers n ans /\
  match ph with
  | Idle => rest cl ans = Done /\ base n g ans
  | Busy o k m p => running p /\ rest cl ans = Call o k /\ exists g1, base n g1 ans /\
      frees (removes o) p /\ retains o g1 g /\ proto n g p (fun g' a => post g1 o (Ret a) g') (fun g' => post g1 o Panic g')
  | Unwinding o k hs => hs <> [] /\ rest cl ans = Call o k /\ exists g1, base n g1 ans /\ retains o g1 g /\ post g1 o Panic g
  end.
Lemma running_shared (o : op V) k : calls_only (Call o k) -> running (p_call o).
Proof. intros [H _]. destruct o; try done; cbn [p_call]; apply running_bind, running_open. Qed.
Lemma prog_enter' cl : calls_only cl -> prog_of (enter cl) = compile [] cl.
Proof. by destruct cl. Qed.
Lemma fol_enter n cl g ans : made cl ans -> calls_only (rest cl ans) -> minds (own_after shared (own n) ans) (bare_after ans) [] (rest cl ans) -> right_answers n ans ->
  base n g ans -> fol n cl g ans (enter (rest cl ans)).
Proof.
  intros H1 H2 H3 H4 H5. split; [done|]. split; [done|]. split; [done|]. split; [done|]. pose proof (running_shared) as Hrun.
  destruct (rest cl ans) as [|o k| | | | | | | | | | | | |] eqn:E; try done. cbn [enter]. split; [by eapply Hrun|]. split; [done|]. exists g. split; [done|]. split; [apply frees_call|]. split; [by intros ?|].
  destruct H3 as [H3 _]. destruct H5 as (B1 & B2 & _ & _). apply proto_call; try done. by rewrite B2.
Qed.
Lemma fol_next n cl g1 g ans o k r : made cl ans -> calls_only (rest cl ans) -> minds (own_after shared (own n) ans) (bare_after ans) [] (rest cl ans) -> right_answers n ans ->
  rest cl ans = Call o k -> base n g1 ans -> post g1 o r g -> fol n cl g (ans ++ [(o, r)]) (enter (k r)).
Proof.
  intros H1 H2 H3 H4 Hr B P. destruct (made_snoc cl ans o k r H1 Hr) as [M1 M2]. destruct (base_post _ _ _ _ _ _ B P) as (B' & F & A).
  rewrite Hr in H2, H3. rewrite <- M2. apply fol_enter; [done|rewrite M2; apply H2|rewrite M2, own_after_snoc, bare_after_snoc; by apply H3|by apply right_snoc|done].
Qed.
Lemma fol_settle n cl g1 g ans o k mine p : made cl ans -> calls_only (rest cl ans) -> minds (own_after shared (own n) ans) (bare_after ans) [] (rest cl ans) -> right_answers n ans ->
  rest cl ans = Call o k -> base n g1 ans -> frees (removes o) p -> retains o g1 g -> proto n g p (fun g' a => post g1 o (Ret a) g') (fun g' => post g1 o Panic g') ->
  fol n cl g (ans ++ (settle (Busy o k mine p)).1) (settle (Busy o k mine p)).2 /\
  prog_of (settle (Busy o k mine p)).2 = catch mine p (fun r _ => compile [] (k r)).
Proof.
  intros H1 H2 H3 H4 Hr B F K P. assert (forall r, calls_only (k r)) as Hk by (rewrite Hr in H2; apply H2).
  assert (running p -> fol n cl g (ans ++ (settle (Busy o k mine p)).1) (settle (Busy o k mine p)).2 /\ prog_of (settle (Busy o k mine p)).2 = catch mine p (fun r _ => compile [] (k r))) as Hgo.
  { intros Hrun. assert (settle (Busy o k mine p) = ([], Busy o k mine p)) as -> by (destruct mine, p; done). cbn [fst snd]. rewrite app_nil_r. split; [|done].
    do 4 (split; [done|]). split; [done|]. split; [done|]. by exists g1. }
  destruct p as [a| | | |lk x p|lk x p|B' lab f p]; try (by apply Hgo).
  - cbn [ProofApart.proto] in P. destruct mine; cbn [settle fst snd]; (split; [by eapply fol_next|]); cbn [catch]; by apply prog_enter'.
  - cbn [ProofApart.proto] in P. destruct mine as [|[lk x] mine]; cbn [settle fst snd].
    + split; [by eapply fol_next|]. by apply prog_enter'.
    + split; [|done]. rewrite app_nil_r. do 4 (split; [done|]). split; [done|]. split; [done|]. by exists g1.
Qed.
Lemma fol_move i c c' γ aw cl ans ph th th' : WX γ (cf_world c) aw -> same_shape w0 (cf_world c) -> fol i cl (γ i) ans ph -> th_prog th = prog_of ph ->
  tstep (holds_of_others i (cf_threads c)) th (cf_world c) = Some (th', cf_world c') ->
  (next_label th = None -> cf_world c' = cf_world c) ->
  (forall lab g', next_label th = Some lab -> trans w0 shared kept still clean aw lab (γ i) g' -> exists aw', WX (upd γ i g') (cf_world c') aw') ->
  exists g' aw', WX (upd γ i g') (cf_world c') aw' /\ fol i cl g' (ans ++ (move (cf_world c) ph).1) (move (cf_world c) ph).2 /\ th_prog th' = prog_of (move (cf_world c) ph).2.
Proof.
  intros Hw Sh (H1 & H2 & H3 & H4 & HF) Hp Hs Hq Ha. destruct th as [h p0]. unfold tstep in Hs. cbn [th_prog th_holds] in *. subst p0.
  destruct ph as [|o k mine p|o k hs]; cbn [prog_of] in Hs; [done|..].
  - destruct HF as (Hrun & Hr & g1 & B & F & K & P). destruct p as [a| | | |lk x p|lk x p|B' lab f p]; try done; cbn [catch] in Hs; cbn [move].
    + destruct (conflict _ lk x); [done|]. injection Hs as <- Ew. exists (γ i), aw. split; [rewrite <- Ew; by apply WX_quiet|].
      destruct (fol_settle i cl g1 (γ i) ans o k ((lk, x) :: mine) p H1 H2 H3 H4 Hr B F K P) as [X Y]. by rewrite Y.
    + injection Hs as <- Ew. exists (γ i), aw. split; [rewrite <- Ew; by apply WX_quiet|].
      destruct (fol_settle i cl g1 (γ i) ans o k (drop_hold lk x mine) p H1 H2 H3 H4 Hr B F K P) as [X Y]. by rewrite Y.
    + cbn [ProofApart.proto] in P. destruct (P (cf_world c) aw) as (g' & Ht & HP); [split; [done|]; exists γ; split; [apply Hw|done]|].
      destruct (Ha lab g' eq_refl Ht) as (aw' & Hw'). exists g', aw'. split; [done|].
      destruct (f (cf_world c)) as [r w1] eqn:Ef. cbn [fst snd] in *. injection Hs as <- _.
      assert (retains o g1 g') as K'.
      { intros e He Hne. destruct (trans_loses _ _ _ _ e Ht (K e He Hne)) as [Hin| ->]; [done|]. by destruct Hne, F. }
      assert (forall p', frees (removes o) p' -> proto i g' p' (fun g' a => post g1 o (Ret a) g') (fun g' => post g1 o Panic g') ->
        fol i cl g' (ans ++ (settle (Busy o k mine p')).1) (settle (Busy o k mine p')).2 /\ catch mine p' (fun r _ => compile [] (k r)) = prog_of (settle (Busy o k mine p')).2) as Hgo.
      { intros p' F' P'. destruct (fol_settle i cl g1 g' ans o k mine p' H1 H2 H3 H4 Hr B F' K' P') as [X Y]. by rewrite Y. }
      destruct r as [b| | |]; cbn [th_prog th_holds].
      * apply Hgo; [by apply F|done].
      * by apply (Hgo PPanic).
      * by apply (Hgo PUB).
      * by apply (Hgo PHang).
  - destruct HF as (Hne & Hr & g1 & B & K & P). destruct hs as [|[lk x] hs]; [done|]. cbn [rels] in Hs. injection Hs as <- Ew. cbn [move th_prog].
    exists (γ i), aw. split; [rewrite <- Ew; by apply WX_quiet|]. assert (forall r, calls_only (k r)) as Hk by (rewrite Hr in H2; apply H2).
    destruct hs as [|y hs]; cbn [settle fst snd].
    + split; [by eapply fol_next|]. cbn [rels]. symmetry. by apply prog_enter'.
    + split; [|done]. rewrite app_nil_r. do 4 (split; [done|]). split; [done|]. split; [done|]. by exists g1.
Qed.

(** ** Runs *)
Variables (cs : list (client V)) (watched : nat -> bool).
Hypothesis (Hlen : N = length cs).
Hypothesis (Hwat : forall n cl, cs !! n = Some cl -> watched n = true -> calls_only cl).
Definition thread_ok (n : nat) cl (g : ghost V) (th : thread V) (f : list event * phase) : Prop :=
  if watched n then fol n cl g f.1 f.2 /\ th_prog th = prog_of f.2
  else proto n g (th_prog th) (fun g _ => idle g) (fun _ => False).
Definition FI sched c : Prop :=
  cinv w0 nolt False c /\ run sched (start w0 cs) = Some c /\ exists γ aw, WX γ (cf_world c) aw /\
    (forall i, cs !! i = None -> g_mine (γ i) = own i) /\ length (cf_threads c) = length cs /\
    forall i cl, cs !! i = Some cl -> exists th, cf_threads c !! i = Some th /\ thread_ok i cl (γ i) th (follow i (enter cl) sched (start w0 cs)).
Lemma FI_step sched i c c' : FI sched c -> cstep i c = Some c' -> FI (sched ++ [i]) c'.
Proof.
  intros (Hc & Hr & γ & aw & Hw & Hn & Hl & Ht) Hs. split; [by eapply cstep_cinv|]. split; [by eapply run_snoc|].
  assert (i < N) as HN.
  { rewrite Hlen, <- Hl. unfold cstep in Hs. destruct (cf_threads c !! i) eqn:Hi; [|done]. by eapply lookup_lt_Some. }
  destruct (one_step i c c' γ aw HN Hc Hs Hw) as (th & th' & Hi & Et & Ec & Hq & Ha).
  assert (exists cl, cs !! i = Some cl) as [cl Hcl]. { apply lookup_lt_is_Some_2. rewrite <- Hl. by eapply lookup_lt_Some. }
  destruct (Ht i cl Hcl) as (th1 & Hth1 & Hok). assert (th1 = th) as -> by congruence.
  assert (exists g' aw', WX (upd γ i g') (cf_world c') aw' /\ thread_ok i cl g' th' (follow i (enter cl) (sched ++ [i]) (start w0 cs))) as (g' & aw' & Hw' & Hok').
  { unfold thread_ok in *. rewrite (follow_snoc i (enter cl) sched i _ c c' Hr Hs). cbn zeta. rewrite decide_True by done. destruct (watched i) eqn:Ewt.
    - destruct Hok as [Hf Hp]. destruct (fol_move i c c' γ aw cl _ _ th th' Hw (ci_shape _ _ _ _ Hc) Hf Hp Et Hq Ha) as (g' & aw' & Hw' & X & Y). exists g', aw'. split; [done|]. cbn [fst snd]. done.
    - destruct th as [hs p]. unfold tstep in Et. cbn [th_prog th_holds] in *. destruct p as [a| | | |l x k|l x k|B lab f k]; try done.
      + destruct (conflict _ l x); [done|]. injection Et as <- Ew. exists (γ i), aw. split; [rewrite <- Ew; by apply WX_quiet|done].
      + injection Et as <- Ew. exists (γ i), aw. split; [rewrite <- Ew; by apply WX_quiet|done].
      + destruct (Hok (cf_world c) aw) as (g' & Htr & Hk); [split; [apply Hc|exists γ; split; [apply Hw|done]]|]. destruct (Ha lab g' eq_refl Htr) as (aw' & Hw'). exists g', aw'. split; [done|].
        destruct (f (cf_world c)) as [[b| | |] w1]; injection Et as <- _; cbn [fst th_prog] in *; done. }
  exists (upd γ i g'), aw'. split; [done|]. split.
  { intros j Hj. rewrite upd_other; [by apply Hn|]. intros ->. congruence. }
  split; [rewrite Ec, insert_length; done|]. intros j cl' Hj. destruct (decide (j = i)) as [->|Hne].
  - assert (cl' = cl) as -> by congruence. exists th'. rewrite upd_same. split; [|done]. rewrite Ec. apply list_lookup_insert. by eapply lookup_lt_Some.
  - destruct (Ht j cl' Hj) as (thj & Hthj & Hokj). exists thj. rewrite upd_other by done. rewrite Ec, list_lookup_insert_ne by done. split; [done|].
    rewrite (follow_snoc j (enter cl') sched i _ c c' Hr Hs). cbn zeta. rewrite decide_False by done. cbn [fst snd]. rewrite app_nil_r.
    by destruct (follow j (enter cl') sched (start w0 cs)).
Qed.
Lemma FI_run sched c : FI [] (start w0 cs) -> run sched (start w0 cs) = Some c -> FI sched c.
Proof.
  intros H0. revert c. induction sched as [|j sched IH] using rev_ind; intros c Hr; [by injection Hr as <-|].
  rewrite <- run_app in Hr. destruct (run sched (start w0 cs)) as [cm|] eqn:Em; [|done]. cbn [mbind option_bind run] in Hr.
  destruct (cstep j cm) as [c1|] eqn:Ec; [|done]. injection Hr as <-. eapply FI_step; [by apply IH|done].
Qed.
End runs.

(** at the start *)
Definition unowned (ops : list (op V)) (own : nat -> gset nat) (N : nat) (e : nat) : Prop := e ∈ alive (seen ops) /\ forall n, n < N -> e ∉ own n.
Lemma cover_start ops shared own N : rules ops -> cover shared (unowned ops own N) N (first ops own) (after ops).
Proof.
  intros L. destruct (reached ops L) as [H A].
  assert (forall e, e ∈ alive (seen ops) <-> e ∈ ents (w_em (after ops))) as HE. { intros e. rewrite (ag_alive _ _ A). by apply live_ents. }
  split.
  - intros e He _. destruct (decide (e ∈ alive (seen ops))) as [Ha|Ha]; [|by apply HE in He].
    destruct (decide (Exists (fun n => e ∈ own n) (seq 0 N))) as [Hx|Hx].
    + left. apply Exists_exists in Hx as (n & Hn%elem_of_seq & Hx). exists n. split; [lia|exact Hx].
    + right. split; [done|]. intros n Hn Hin. apply Hx, Exists_exists. exists n. split; [apply elem_of_seq; lia|done].
  - intros e [He _]. by apply HE.
  - intros e n Hn [_ He]. exact (He n Hn).
Qed.
Lemma FI_start ops shared kept still own cs watched : rules ops -> divided shared kept (alive (seen ops)) own ->
  (forall n cl, cs !! n = Some cl -> minds (after ops) shared kept still (own n) knows_nothing [] cl) ->
  (forall n cl, cs !! n = Some cl -> watched n = true -> calls_only cl) ->
  FI (after ops) shared kept still (left_at ops (after ops)) (bare_dead (after ops) shared kept (seen ops)) own (seen ops) (unowned ops own (length cs)) (length cs) cs watched [] (start (after ops) cs).
Proof.
  intros L Hd Hcs Hwat. destruct (WI_start ops shared kept still own L Hd) as [aw Hw]. destruct (reached ops L) as [H _].
  assert (forall i k a b, group_head i (after ops) = Some (k, a, b) -> has_registered a (after ops) = true /\ has_registered b (after ops) = true) as HT by (intros j k a b Hh; by eapply R_types).
  split.
  { apply start_cinv; [intros _; by eapply R_good|]. apply Forall_forall. intros cl _. by apply any_client. }
  split; [done|]. exists (first ops own), aw. split; [split; [done|by apply cover_start]|]. split; [done|]. split; [simpl; apply map_length|]. intros i cl Hi.
  exists (Th [] (compile [] cl)). split; [cbn [start cf_threads]; by rewrite list_lookup_fmap, Hi|]. unfold thread_ok. cbn [follow fst snd th_prog].
  assert (forall e, shared e = true -> kept e = true) as Hsk by apply Hd.
  destruct (watched i) eqn:Ew.
  - split; [|symmetry; apply prog_enter'; by eapply Hwat]. change cl with (rest cl []) at 2. apply fol_enter; [done|done|by eapply Hwat|by apply Hcs| |].
    + intros l o r l' E. by destruct l.
    + split; [by left|]. do 2 (split; [done|]). intros _ t e _ _. apply alike_refl.
  - apply proto_compile; [done|by left|by apply Hcs].
Qed.
End apart.

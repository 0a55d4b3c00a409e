(** Which clients walk in order; no deadlock; runs end. *)
From Coq Require Import Sorting.Sorted.
From stdpp Require Import prelude list gmap.
From Verif Require Import Base Api ModelSparse ModelEntity ModelGroup ModelWorld ModelQuery ModelStep ModelConc SpecConc
  Spec History ProofSparse ProofWorld ProofWf ProofTerm ProofConc ProofConc2 ProofConc3 ProofConc4 ProofConc5 ProofConc6 ProofConc7 ProofConc8 ProofConc9.

Section disciplines.
Context {V : Type}.
Implicit Types (w : world V) (c : conf V) (cl : client V).

(** ** Any client, any plain client *)
Definition nolt (l l' : lock) : Prop := True.
Lemma any_q w hs q : q_ok w nolt hs q.
Proof. revert hs. induction q; intros hs; simpl; repeat split; auto. Qed.
Lemma any_change w hs t : change_ok w nolt hs t.
Proof. done. Qed.
Lemma sorted_any {A} (l : list A) : StronglySorted (fun _ _ => True) l.
Proof. induction l; constructor; [done|]. by apply Forall_true. Qed.
Lemma any_op w (pl : Prop) hs (o : op V) : (pl -> plain_op o) -> op_ok w nolt pl hs o.
Proof.
  intros H. destruct o; try done; simpl.
  - do 3 (split; [done|]). split; [done|]. apply sorted_any.
  - split; [apply any_q|done].
  - split; [apply any_q|done].
Qed.
Lemma any_client w (pl : Prop) cl e : (pl -> plain_client cl) -> client_ok w nolt pl e cl.
Proof.
  revert e. induction cl as [|o k IH|id k IH|k IH|n k IH|j t v k IH|j t k IH|j t vs k IH|t x k IH|t id x k IH|r x k IH|j o k IH|q k IH|j c k IH|j k IH];
    intros e Hp; cbn [client_ok plain_client] in *; try done.
  - split; [apply any_op; intros H; by apply Hp|]. intros r. apply IH. intros H. by apply Hp.
  - split; [done|]. intros r. apply IH. intros H. by apply Hp.
  - split; [done|]. intros r. apply IH. intros H. by apply Hp.
  - split; [done|]. intros r. apply IH. intros H. by apply Hp.
  - split; [done|]. intros r. apply IH. intros H. by apply Hp.
  - split; [done|]. intros r. apply IH. intros H. by apply Hp.
  - split; [done|]. intros r. apply IH. intros H. by apply Hp.
  - split; [done|]. intros r. apply IH. intros H. by apply Hp.
  - split; [done|]. intros r. apply IH. intros H. by apply Hp.
  - split; [done|]. intros r'. apply IH. intros H. by apply Hp.
  - intros r. apply IH. intros H. by apply Hp.
  - split; [apply any_q|]. split; [intros H; by apply Hp|]. intros r. apply IH. intros H. by apply Hp.
  - intros r. apply IH. intros H. by apply Hp.
  - by apply IH.
Qed.
Lemma reach_any w cs c : reaches w cs c -> cinv w nolt False c.
Proof.
  intros [sched Hr]. eapply run_cinv; [|done|exact Hr]. apply start_cinv; [done|]. apply Forall_forall. intros cl _. by apply any_client.
Qed.

(** ** Tidy clients *)
Section order.
Variables (rank : tid -> nat) (gq : bool) (w : world V).
Definition level (l : lock) : nat * nat :=
  match l with
  | LMan => (0, 0)
  | LGroup i => (if gq then 3 else 1, i)
  | LStore t => (2, rank t)
  | LRes r => (4, r)
  end.
Definition llt (l l' : lock) : Prop :=
  (level l).1 < (level l').1 \/ ((level l).1 = (level l').1 /\ (level l).2 < (level l').2).
#[local] Instance llt_dec l l' : Decision (llt l l').
Proof. unfold llt. apply _. Qed.
Lemma llt_irr l : ~ llt l l.
Proof. unfold llt. lia. Qed.
Lemma llt_trans l1 l2 l3 : llt l1 l2 -> llt l2 l3 -> llt l1 l3.
Proof. unfold llt. lia. Qed.
Lemma man_lt l : l <> LMan -> llt LMan l.
Proof. destruct l; [done|..]; intros _; left; simpl; destruct gq; lia. Qed.
Hypothesis Hg : groups_in_order rank w.

Definition is_handle (h : list (lock * bool)) : Prop := h = [(LMan, false)].
Definition only_man (hs : list (lock * bool)) : Prop := forall y, y ∈ hs -> y = (LMan, false).
Lemma above_man hs l : only_man hs -> l <> LMan -> above llt hs l.
Proof. intros H Hl y ->%H. by apply man_lt. Qed.
Lemma head_lt i k a b : group_head i w = Some (k, a, b) -> i < n_groups w.
Proof. unfold group_head, n_groups. destruct (w_groups w !! i) eqn:E; [|done]. intros _. by apply lookup_lt_Some in E. Qed.
Lemma tidy_change hs t : only_man hs -> (gq = true -> ungrouped w t) -> change_ok w llt hs t.
Proof.
  intros Ho Hu. split; [by apply above_man|].
  assert (forall i, with_ty w t i = true -> gq = false) as Hw.
  { intros i Hi. destruct gq; [|done]. exfalso. unfold with_ty in Hi. destruct (group_head i w) as [[[k a] b]|] eqn:E; [|done].
    destruct (Hu eq_refl i k a b E) as [Ha Hb]. apply Nat.eqb_neq in Ha, Hb. by rewrite Ha, Hb in Hi. }
  split; [split|].
  - intros i _. by apply above_man.
  - intros i j Hij Hi. right. simpl. lia.
  - intros i k a b Hh Hi. split; [by apply above_man|]. split; [by apply above_man|]. specialize (Hw i Hi).
    split; [right; split; [done|]; simpl; by apply (Hg i k)|]. intros j _ _. unfold llt. simpl. rewrite Hw. lia.
Qed.
Lemma q_locks_order q : q_plain q = true -> forall y, y ∈ q_locks w q -> exists t m, y = (LStore t, m) /\ t ∈ q_order q.
Proof.
  induction q; intros Hp y Hy; simpl in *; try done.
  1: apply elem_of_list_singleton in Hy as ->; do 2 eexists; split; [done|left].
  all: repeat match goal with H : _ && _ = true |- _ => apply andb_prop in H as [? ?] end.
  all: rewrite !elem_of_app in Hy.
  all: repeat match goal with H : _ \/ _ |- _ => destruct H as [H|H] end.
  all: match goal with IH : _ -> forall y, y ∈ q_locks w ?q -> _, H : ?z ∈ q_locks w ?q |- _ => let t := fresh in let m' := fresh in let Ht := fresh in destruct (IH ltac:(assumption) z H) as (t & m' & -> & Ht); exists t, m'; split; [done|]; rewrite !elem_of_app; tauto end.
Qed.
Lemma sorted_app {A} (R : A -> A -> Prop) l1 l2 : StronglySorted R (l1 ++ l2) ->
  StronglySorted R l1 /\ StronglySorted R l2 /\ forall x y, x ∈ l1 -> y ∈ l2 -> R x y.
Proof.
  induction l1 as [|a l1 IH]; simpl; intros H.
  - split; [constructor|]. split; [done|]. by intros x y ?%elem_of_nil.
  - inversion H as [|? ? H1 H2]; subst. destruct (IH H1) as (A1 & A2 & A3). apply Forall_app in H2 as [F1 F2].
    split; [by constructor|]. split; [done|]. intros x y [->|Hx]%elem_of_cons Hy; [|auto]. by apply (proj1 (Forall_forall _ _) F2).
Qed.
Definition below hs (l : list tid) : Prop := forall t, t ∈ l -> above llt hs (LStore t).
Lemma below_locks hs q l : q_plain q = true -> below hs l -> (forall x y, x ∈ q_order q -> y ∈ l -> rank x < rank y) -> below (q_locks w q ++ hs) l.
Proof.
  intros Hp Hb Hr t Ht. apply above_app. split; [|by apply Hb]. intros y Hy. destruct (q_locks_order q Hp y Hy) as (u & m & -> & Hu).
  right. simpl. split; [done|]. by apply Hr.
Qed.
Lemma below_app hs l l' : below hs (l ++ l') <-> below hs l /\ below hs l'.
Proof. unfold below. setoid_rewrite elem_of_app. naive_solver. Qed.
Lemma tidy_q_plain q hs : q_plain q = true -> in_order rank (q_order q) -> below hs (q_order q) -> q_ok w llt hs q.
Proof.
  revert hs. induction q as [m t|a IHa b IHb|a IHa b IHb c IHc|a IHa b IHb c IHc d IHd|a IHa b IHb c IHc d IHd e IHe
    |a IHa b IHb|a IHa b IHb|k ma mb a b]; intros hs Hp Ho Hb; cbn [q_ok q_order q_plain] in *; try done.
  - apply Hb. left.
  - apply andb_prop in Hp as [Pa Pb]. apply sorted_app in Ho as (Oa & Ob & Oab). apply below_app in Hb as [Ba Bb].
    split; [by apply IHa|]. apply IHb; [done|done|]. by apply below_locks.
  - apply andb_prop in Hp as [[Pa Pb]%andb_prop Pc]. apply sorted_app in Ho as (Oa & Ob & Oab). apply sorted_app in Ob as (Ob & Oc & Obc).
    apply below_app in Hb as [Ba [Bb Bc]%below_app]. setoid_rewrite elem_of_app in Oab.
    split; [by apply IHa|]. split; [apply IHb; [done..|]; apply below_locks; auto|].
    apply IHc; [done..|]. apply below_locks; auto. apply below_locks; auto.
  - apply andb_prop in Hp as [[[Pa Pb]%andb_prop Pc]%andb_prop Pd]. apply sorted_app in Ho as (Oa & Ob & Oab). apply sorted_app in Ob as (Ob & Oc & Obc).
    apply sorted_app in Oc as (Oc & Od & Ocd).
    apply below_app in Hb as [Ba [Bb [Bc Bd]%below_app]%below_app]. setoid_rewrite elem_of_app in Oab. setoid_rewrite elem_of_app in Oab.
    setoid_rewrite elem_of_app in Obc.
    split; [by apply IHa|]. split; [apply IHb; [done..|]; apply below_locks; auto|].
    split; [apply IHc; [done..|]; apply below_locks; auto; apply below_locks; auto|].
    apply IHd; [done..|]. apply below_locks; auto. apply below_locks; auto. apply below_locks; auto.
  - apply andb_prop in Hp as [[[[Pa Pb]%andb_prop Pc]%andb_prop Pd]%andb_prop Pe]. apply sorted_app in Ho as (Oa & Ob & Oab). apply sorted_app in Ob as (Ob & Oc & Obc).
    apply sorted_app in Oc as (Oc & Od & Ocd). apply sorted_app in Od as (Od & Oe & Ode).
    apply below_app in Hb as [Ba [Bb [Bc [Bd Be]%below_app]%below_app]%below_app]. setoid_rewrite elem_of_app in Oab. setoid_rewrite elem_of_app in Oab.
    setoid_rewrite elem_of_app in Oab. setoid_rewrite elem_of_app in Obc. setoid_rewrite elem_of_app in Obc. setoid_rewrite elem_of_app in Ocd.
    split; [by apply IHa|]. split; [apply IHb; [done..|]; apply below_locks; auto|].
    split; [apply IHc; [done..|]; apply below_locks; auto; apply below_locks; auto|].
    split; [apply IHd; [done..|]; apply below_locks; auto; apply below_locks; auto; apply below_locks; auto|].
    apply IHe; [done..|]. apply below_locks; auto. apply below_locks; auto. apply below_locks; auto. apply below_locks; auto 6.
  - apply andb_prop in Hp as [Pa Pb]. apply sorted_app in Ho as (Oa & Ob & Oab). apply below_app in Hb as [Ba Bb].
    split; [by apply IHa|]. apply IHb; [done|done|]. by apply below_locks.
  - apply andb_prop in Hp as [Pa Pb]. apply sorted_app in Ho as (Oa & Ob & Oab). apply below_app in Hb as [Ba Bb].
    split; [by apply IHa|]. apply IHb; [done|done|]. by apply below_locks.
Qed.
Lemma tidy_q q hs : only_man hs -> q_tidy rank gq q -> q_ok w llt hs q.
Proof.
  intros Hm [Ho [Hp|(Hq & k & ma & mb & a & b & ->)]].
  - apply tidy_q_plain; [done|done|]. intros t _. by apply above_man.
  - simpl. split; [by apply above_man|]. split; [by apply above_man|]. split.
    + right. split; [done|]. simpl in *. inversion Ho as [|? ? _ F]; subst. by inversion F.
    + intros i _. split; [by apply above_man|]. unfold llt. simpl. rewrite Hq. lia.
Qed.
Lemma tidy_op hs o : only_man hs -> (hs <> [] -> no_manager o) -> op_tidy rank gq w o -> op_ok w llt False hs o.
Proof.
  intros Hm Hn Ho.
  assert (~ no_manager o -> hs = []) as Hnil. { destruct hs; [done|]. intros H. destruct H. by apply Hn. }
  destruct o; cbn [op_ok op_tidy no_manager] in *; try done; try (by apply above_man); try (rewrite Hnil by tauto; apply above_nil).
  - rewrite Hnil by tauto. destruct Ho as [Hq Ho]. split; [apply above_nil|]. split; [split|].
    + intros i _. apply above_nil.
    + intros i j Hij _. right. simpl. lia.
    + split.
      * intros i k a b Hh _. split; [apply above_nil|]. split; [apply above_nil|]. split; [right; split; [done|]; simpl; by apply (Hg i k)|].
        intros j _ _. unfold llt. simpl. rewrite Hq. lia.
      * split; [intros t _; apply above_nil|]. unfold in_order in Ho. clear -Ho. induction Ho as [|t l H IH F]; constructor; [done|].
        eapply Forall_impl; [exact F|]. intros u Hu. right. simpl. done.
  - rewrite Hnil by tauto. split; [apply above_nil|]. apply tidy_change; [|done]. by intros y ->%elem_of_list_singleton.
  - rewrite Hnil by tauto. split; [apply above_nil|]. apply tidy_change; [|done]. by intros y ->%elem_of_list_singleton.
  - split; [by apply tidy_q|done].
  - split; [by apply tidy_q|done].
Qed.
Definition keeps_held (held : option bool) (e : list (list (lock * bool))) : Prop :=
  match held with None => e = [] | Some true => e = [[(LMan, false)]] | Some false => exists h, e = [h] end.
Lemma tidy_client cl held e : keeps_held held e -> tidy rank gq w held cl -> client_ok w llt False e cl.
Proof.
  revert held e. induction cl as [|o k IH|id k IH|k IH|n k IH|j t v k IH|j t k IH|j t vs k IH|t x k IH|t id x k IH|r x k IH|j o k IH|q k IH|j c k IH|j k IH];
    intros held e He Hc; cbn [client_ok tidy] in *.
  - done.
  - destruct Hc as (Ho & Hh & Hk). split; [|intros r; by eapply IH]. destruct Hh as [->|[-> Hn]]; simpl in He; subst e; apply tidy_op; try done.
    + by intros y ?%elem_of_nil.
    + simpl. by intros y ->%elem_of_list_singleton.
  - destruct Hc as [-> Hk]. simpl in He; subst e. split; [apply above_nil|]. intros r. eapply IH; [|apply Hk]. by destruct r as [[]| | |].
  - destruct Hc as [-> Hk]. simpl in He; subst e. split; [apply above_nil|]. intros r. eapply IH; [|apply Hk]. by destruct r.
  - destruct Hc as [-> Hk]. simpl in He; subst e. split; [apply above_nil|]. intros r. eapply IH; [|apply Hk]. by destruct r.
  - destruct Hc as (-> & -> & Hu & Hk). simpl in He; subst e. split; [|intros r; eapply IH; [|apply Hk]; by destruct r].
    apply tidy_change; [|done]. simpl. by intros y ->%elem_of_list_singleton.
  - destruct Hc as (-> & -> & Hu & Hk). simpl in He; subst e. split; [|intros r; eapply IH; [|apply Hk]; by destruct r].
    apply tidy_change; [|done]. simpl. by intros y ->%elem_of_list_singleton.
  - destruct Hc as (-> & -> & Hk). simpl in He; subst e. split; [|intros r; eapply IH; [|apply Hk]; by destruct r].
    apply above_man; [|done]. simpl. by intros y ->%elem_of_list_singleton.
  - destruct Hc as [-> Hk]. simpl in He; subst e. split; [apply above_nil|]. intros r. eapply IH; [|apply Hk]. destruct r; [by eexists|done].
  - destruct Hc as [-> Hk]. simpl in He; subst e. split; [apply above_nil|]. intros r. eapply IH; [|apply Hk]. destruct r; [by eexists|done].
  - destruct Hc as [-> Hk]. simpl in He; subst e. split; [apply above_nil|]. intros r'. eapply IH; [|apply Hk]. destruct r'; [by eexists|done].
  - intros r. by eapply IH.
  - destruct Hc as (-> & Hq & Hk). simpl in He; subst e. split; [apply tidy_q; [by intros y ?%elem_of_nil|done]|]. split; [done|].
    intros r. eapply IH; [|apply Hk]. destruct r; [by eexists|done..].
  - intros r. by eapply IH.
  - destruct Hc as [-> Hk]. eapply IH; [|exact Hk]. destruct held as [[]|]; simpl in He; [by subst|by destruct He as [h ->]|by subst].
Qed.
End order.

(** ** No deadlock *)
Lemma exists_max {A} (R : A -> A -> Prop) `{!forall x y, Decision (R x y)} (l : list A) : (forall x, ~ R x x) -> (forall x y z, R x y -> R y z -> R x z) ->
  l <> [] -> exists x, x ∈ l /\ forall y, y ∈ l -> ~ R x y.
Proof.
  intros Hi Ht. induction l as [|a l IH]; [done|]. intros _. destruct l as [|b l].
  - exists a. split; [left|]. by intros y ->%elem_of_list_singleton.
  - destruct IH as (x & Hx & Hm); [done|]. destruct (decide (R x a)) as [Hr|Hr].
    + exists a. split; [left|]. intros y [->|Hy]%elem_of_cons; [done|]. intros Hay. apply (Hm y Hy). eauto.
    + exists x. split; [by right|]. intros y [->|Hy]%elem_of_cons; auto.
Qed.
Section deadlock.
Variables (w0 : world V) (lt : lock -> lock -> Prop) (pl : Prop).
Hypothesis (lt_irr : forall l, ~ lt l l) (lt_trans : forall x y z, lt x y -> lt y z -> lt x z).
Context `{!forall x y, Decision (lt x y)}.
Definition is_ub (th : thread V) : bool := match th_prog th with PUB => true | _ => false end.
Definition is_mv (th : thread V) : bool := match th_prog th with PRel _ _ _ | PAct _ _ _ => true | _ => false end.
Definition wanted (th : thread V) : list lock := match th_prog th with PAcq l _ _ => [l] | _ => [] end.
Lemma no_deadlock c : cinv w0 lt pl c ->
  (forall i th, cf_threads c !! i = Some th -> finished c i) \/ (exists i, crashed c i) \/ exists i, can_move c i.
Proof.
  intros HI.
  destruct (decide (Exists (fun th => is_ub th = true) (cf_threads c))) as [Hu|Hu].
  { apply Exists_exists in Hu as (th & [i Hi]%elem_of_list_lookup & Hth). right; left. exists i, th. split; [done|]. unfold is_ub in Hth. by destruct (th_prog th). }
  destruct (decide (Exists (fun th => is_mv th = true) (cf_threads c))) as [Hm|Hm].
  { apply Exists_exists in Hm as (th & [i Hi]%elem_of_list_lookup & Hth). right; right. exists i. split.
    - unfold cstep. rewrite Hi. unfold tstep, is_mv in *. destruct (th_prog th) as [ | | | | | |B lab f k]; try done; [by eexists|].
      destruct (f (cf_world c)) as [[]]; by eexists.
    - intros l x (th' & k & Hi' & Hk). rewrite Hi in Hi'. injection Hi' as <-. unfold is_mv in Hth. by rewrite Hk in Hth. }
  assert (forall i th, cf_threads c !! i = Some th -> finished c i \/ exists l x k, th_prog th = PAcq l x k) as Hall.
  { intros i th Hi. pose proof (ci_thr _ _ _ c HI i th Hi) as Hw.
    assert (th ∈ cf_threads c) as Hin by by eapply elem_of_list_lookup_2.
    destruct th as [hs p]. simpl in *. destruct p as [[]| | | |l x k| |].
    - left. exists (Th hs (PRet tt)). split; [done|]. split; [done|]. destruct Hw as (m & Hp & ->). by apply Permutation_nil.
    - done.
    - exfalso. apply Hu, Exists_exists. by eexists.
    - destruct Hw as [l Hl]. by destruct (lt_irr l).
    - right. by exists l, x, k.
    - exfalso. apply Hm, Exists_exists. by eexists.
    - exfalso. apply Hm, Exists_exists. by eexists. }
  set (L := concat (map wanted (cf_threads c))).
  assert (forall l, l ∈ L <-> exists i x, wants c i l x) as HL.
  { intros l. unfold L. rewrite elem_of_list_In, in_concat. split.
    - intros (ls & Hls & Hin). rewrite <- !elem_of_list_In in *. apply elem_of_list_fmap in Hls as (th & -> & [i Hi]%elem_of_list_lookup).
      unfold wanted in Hin. destruct (th_prog th) as [| | | |l' x k| |] eqn:E; try by apply elem_of_nil in Hin.
      apply elem_of_list_singleton in Hin as ->. exists i, x, th, k. done.
    - intros (i & x & th & k & Hi & Hk). exists (wanted th). rewrite <- !elem_of_list_In. split.
      + apply elem_of_list_fmap. exists th. split; [done|]. by eapply elem_of_list_lookup_2.
      + unfold wanted. rewrite Hk. left. }
  destruct (decide (L = [])) as [HE|HE].
  { left. intros i th Hi. destruct (Hall i th Hi) as [|(l & x & k & Hk)]; [done|]. exfalso.
    assert (l ∈ L) as Hl by (apply HL; exists i, x, th, k; done). rewrite HE in Hl. by apply elem_of_nil in Hl. }
  right; right. destruct (exists_max lt L lt_irr lt_trans HE) as (l & Hl & Hmax). apply HL in Hl as (i & x & th & k & Hi & Hk).
  assert (forall j y, ~ guard_of c j (l, y)) as Hfree.
  { intros j y (tj & Hj & Hy). destruct (Hall j tj Hj) as [(tj' & Hj' & _ & Hh)|(l' & x' & k' & Hk')].
    - rewrite Hj in Hj'. injection Hj' as <-. rewrite Hh in Hy. by apply elem_of_nil in Hy.
    - apply (Hmax l'). { apply HL. exists j, x', tj, k'. done. }
      pose proof (ci_thr _ _ _ c HI j tj Hj) as Hw. rewrite Hk' in Hw. destruct Hw as [Ha _]. apply (Ha (l, y)). by rewrite app_nil_r. }
  exists i. split.
  - unfold cstep. rewrite Hi. unfold tstep. rewrite Hk.
    destruct (conflict _ l x) eqn:Ec; [|by eexists]. exfalso. apply conflict_true in Ec as (y & Hy & _). apply elem_of_app in Hy as [Hy|Hy].
    + apply (Hfree i y). by exists th.
    + unfold holds_of_others in Hy. apply elem_of_list_In, in_concat in Hy as (hs & Hhs & Hy). rewrite <- !elem_of_list_In in *.
      apply elem_of_list_fmap in Hhs as (tj & -> & Hj).
      assert (tj ∈ cf_threads c) as [j Hj']%elem_of_list_lookup.
      { rewrite (delete_Permutation _ _ _ Hi). by right. }
      apply (Hfree j y). by exists tj.
  - intros l' x' (th' & k' & Hi' & Hk'). rewrite Hi in Hi'. injection Hi' as <-. rewrite Hk in Hk'. by injection Hk' as <- <- _.
Qed.
End deadlock.

(** ** Runs end *)
Definition psucc (p p' : prog V unit) : Prop :=
  match p with
  | PAcq _ _ k | PRel _ _ k => p' = k
  | PAct _ _ k => (exists b, p' = k b) \/ p' = PPanic \/ p' = PUB \/ p' = PHang
  | _ => False
  end.
Lemma psucc_wf p : Acc (fun p' p => psucc p p') p.
Proof.
  assert (forall p, (forall p', ~ psucc p p') -> Acc (fun p' p => psucc p p') p) as H0. { intros q H. constructor. intros p' Hp. destruct (H p' Hp). }
  induction p as [a| | | |l x k IH|l x k IH|B lab f k IH].
  - apply H0. auto.
  - apply H0. auto.
  - apply H0. auto.
  - apply H0. auto.
  - constructor. intros p' ->. exact IH.
  - constructor. intros p' ->. exact IH.
  - constructor. intros p' Hp. destruct Hp as [[b ->] | [-> | [-> | ->]]]; [apply IH | apply H0; auto ..].
Qed.
Definition one_less {A} (R : A -> A -> Prop) (l' l : list A) : Prop := exists i x x', l !! i = Some x /\ l' = <[i := x']> l /\ R x' x.
Lemma one_less_wf {A} (R : A -> A -> Prop) (l : list A) : Forall (Acc R) l -> Acc (one_less R) l.
Proof.
  induction l as [|x l IH]; intros HF.
  - constructor. intros l' (i & x & x' & Hi & _). discriminate Hi.
  - inversion HF as [|? ? Hx Hl]; subst. specialize (IH Hl). clear HF Hl. revert l IH. induction Hx as [x Hx IHx]. intros l Hl.
    induction Hl as [l Hl IHl]. constructor. intros l' (i & y & y' & Hi & -> & Hr). destruct i as [|i]; simpl in *.
    + injection Hi as ->. apply IHx; [exact Hr|]. constructor. exact Hl.
    + apply IHl. exists i, y, y'. split; [exact Hi|]. split; [reflexivity|exact Hr].
Qed.
Lemma cstep_progs i c c' : cstep i c = Some c' -> one_less (fun p' p => psucc p p') (map th_prog (cf_threads c')) (map th_prog (cf_threads c)).
Proof.
  unfold cstep. destruct (cf_threads c !! i) as [th|] eqn:Hi; [|done]. intros H.
  assert (exists th', c' = Cf (cf_world c') (<[i := th']> (cf_threads c)) /\ psucc (th_prog th) (th_prog th')) as (th' & -> & Hs).
  { unfold tstep in H. destruct (th_prog th) as [a| | | |l x k|l x k|B lab f k]; try done.
    - destruct (conflict _ _ _); [done|]. injection H as <-. by eexists.
    - injection H as <-. by eexists.
    - destruct (f (cf_world c)) as [[b| | |] w']; injection H as <-; eexists; (split; [done|]); simpl; eauto. }
  exists i, (th_prog th), (th_prog th'). split; [rewrite list_lookup_fmap, Hi; done|]. split; [|done]. apply list_fmap_insert.
Qed.
Lemma runs_end c : Acc (fun c' c => exists i, cstep i c = Some c') c.
Proof.
  remember (map th_prog (cf_threads c)) as ps eqn:E.
  assert (Acc (one_less (fun p' p => psucc p p')) ps) as HA. { apply one_less_wf. apply Forall_forall. intros p _. apply psucc_wf. }
  revert c E. induction HA as [ps _ IH]. intros c ->. constructor. intros c' [i Hi]. eapply IH; [|reflexivity]. eapply cstep_progs. exact Hi.
Qed.
End disciplines.

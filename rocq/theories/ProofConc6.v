(** Every call walks as it should. *)
From Coq Require Import Sorting.Sorted.
From stdpp Require Import prelude list gmap.
From Verif Require Import Base Api ModelSparse ModelEntity ModelGroup ModelWorld ModelQuery ModelStep ModelConc SpecConc
  Spec History ProofSparse ProofWorld ProofWf ProofTerm ProofConc ProofConc2 ProofConc3 ProofConc4 ProofConc5.

Section calls.
Context {V : Type}.
Implicit Types (w : world V) (h hs mine : list (lock * bool)).
Variables (w0 : world V) (lt : lock -> lock -> Prop) (pl : Prop).
Notation piece := (piece w0).
Notation above := (above lt).
Notation W h0 mine p Q := (wp w0 lt pl True h0 mine p Q).

Definition with_ty (t : tid) (i : nat) : bool :=
  match group_head i w0 with Some (_, a, b) => (a =? t) || (b =? t) | None => false end.
Definition listed (t : tid) (i n : nat) : list nat := filter (fun j => with_ty t j = true) (seq i n).
Definition gholds (gs : list nat) : list (lock * bool) := map (fun i => (LGroup i, true)) gs.
Definition sholds (ts : list tid) : list (lock * bool) := map (fun t => (LStore t, true)) ts.

(** the orders needed *)
Definition groups_ok hs (P : nat -> bool) : Prop :=
  (forall i, i < n_groups w0 -> above hs (LGroup i)) /\
  (forall i j, i < j < n_groups w0 -> P i = true -> lt (LGroup i) (LGroup j)).
Definition turns_ok hs (P : nat -> bool) : Prop :=
  forall i k a b, group_head i w0 = Some (k, a, b) -> P i = true ->
    above hs (LStore a) /\ above hs (LStore b) /\ lt (LStore a) (LStore b) /\
    forall j, j < n_groups w0 -> P j = true -> lt (LGroup j) (LStore a) /\ lt (LGroup j) (LStore b).

Lemma above_app h1 h2 l : above (h1 ++ h2) l <-> above h1 l /\ above h2 l.
Proof. unfold ProofConc4.above. setoid_rewrite elem_of_app. naive_solver. Qed.
Lemma above_cons y h l : above (y :: h) l <-> lt y.1 l /\ above h l.
Proof. unfold ProofConc4.above. setoid_rewrite elem_of_cons. naive_solver. Qed.
Lemma above_nil l : above [] l.
Proof. by intros y ?%elem_of_nil. Qed.
Lemma above_gholds gs l : (forall i, i ∈ gs -> lt (LGroup i) l) -> above (gholds gs) l.
Proof. intros H y (i & -> & Hi)%elem_of_list_fmap. simpl. auto. Qed.
Lemma above_sholds ts l : (forall t, t ∈ ts -> lt (LStore t) l) -> above (sholds ts) l.
Proof. intros H y (i & -> & Hi)%elem_of_list_fmap. simpl. auto. Qed.

(** ** The manager *)
Lemma wp_ask_exist mine h0 id (Q : bool -> list (lock * bool) -> Prop) x : (LMan, x) ∈ mine ++ h0 -> (forall b, Q b mine) ->
  W h0 mine (ask (exist id)) Q.
Proof.
  intros Hl HQ. apply wp_ask.
  - intros w w' _ [_ Ha]. specialize (Ha _ _ Hl). simpl in Ha. unfold exist. by rewrite Ha.
  - intros w _. pose proof (exist_noub id w). pose proof (nb_exist id w). by destruct (exist id w).
Qed.
Lemma wp_exist mine h0 id (Q : bool -> list (lock * bool) -> Prop) : above (mine ++ h0) LMan -> (forall b, Q b mine) -> W h0 mine (p_exist id) Q.
Proof.
  intros HA HQ. apply wp_bind, wp_acq; [done|]. apply wp_bind. eapply wp_ask_exist; [left|]. intros b.
  apply wp_bind. eapply wp_rel; [done|]. by apply wp_ret.
Qed.
Lemma wp_entity mine h0 id (Q : bool -> list (lock * bool) -> Prop) : above (mine ++ h0) LMan ->
  Q true ((LMan, false) :: mine) -> Q false mine -> W h0 mine (p_entity id) Q.
Proof.
  intros HA HT HF. apply wp_bind, wp_acq; [done|]. apply wp_bind. eapply wp_ask_exist; [left|]. intros [].
  - by apply wp_ret.
  - apply wp_bind. eapply wp_rel; [done|]. by apply wp_ret.
Qed.
Lemma wp_on_em mine h0 {A} lab (m : M em A) (Q : A -> list (lock * bool) -> Prop) : piece (mine ++ h0) lab (on_em m) ->
  nblock m -> (forall s, (m s).1 <> UB) -> (forall a, Q a mine) -> W h0 mine (act lab (on_em m)) Q.
Proof.
  intros HP N U HQ. apply wp_act; [done|]. intros w _. unfold on_em. specialize (N (w_em w)). specialize (U (w_em w)).
  destruct (m (w_em w)) as [[a| | |] e]; simpl in *; try done.
Qed.
Lemma wp_new_entity mine h0 (Q : nat -> list (lock * bool) -> Prop) : above (mine ++ h0) LMan ->
  (forall id, Q id ((LMan, false) :: mine)) -> W h0 mine p_new_entity Q.
Proof.
  intros HA HQ. apply wp_bind, wp_acq; [done|]. apply wp_bind, wp_on_em; [apply piece_new; left|apply nb_em_alloc|apply em_alloc_noub|].
  intros id. apply wp_bind. eapply wp_rel; [done|]. apply wp_bind, wp_entity; [done| |].
  - apply wp_bind. apply wp_passert; [done|]. intros _. by apply wp_ret.
  - apply wp_bind. by apply wp_passert.
Qed.
Lemma wp_new_entities mine h0 n (Q : nat * nat -> list (lock * bool) -> Prop) : above (mine ++ h0) LMan ->
  (forall r, Q r ((LMan, false) :: mine)) -> W h0 mine (p_new_entities n) Q.
Proof.
  intros HA HQ. apply wp_bind, wp_acq; [done|]. apply wp_bind, wp_on_em; [apply piece_alloc; left|apply nb_em_alloc_n|apply em_alloc_n_noub|].
  intros id. apply wp_bind. eapply wp_rel; [done|]. apply wp_bind, wp_acq; [done|]. by apply wp_ret.
Qed.

(** ** Storages *)
Lemma wp_registered mine h0 t (Q : bool -> list (lock * bool) -> Prop) : Q (has_registered t w0) mine -> W h0 mine (look (has_registered t)) Q.
Proof. apply wp_look0. intros w w' Hs. by apply shape_has. Qed.
Lemma wp_storage mine h0 t x (Q : unit -> list (lock * bool) -> Prop) : above (mine ++ h0) (LStore t) ->
  Q tt ((LStore t, x) :: mine) -> W h0 mine (p_storage t x) Q.
Proof.
  intros HA HQ. apply wp_bind, wp_registered. apply wp_bind. apply wp_passert; [done|]. intros _. by apply wp_acq.
Qed.
(** a piece of work that keeps worlds good *)
Lemma wp_act_ok mine h0 lab {B} (m : M (world V) B) (Q : B -> list (lock * bool) -> Prop) : piece (mine ++ h0) lab m -> ok good m -> nblock m ->
  (forall b, Q b mine) -> W h0 mine (act lab m) Q.
Proof.
  intros HP HO HN HQ. apply wp_act; [done|]. intros w [_ Hg]. specialize (HN w). specialize (HO w).
  destruct (m w) as [[b| | |] w']; simpl in *; try done. intros Hpl. by destruct (HO (Hg Hpl)).
Qed.

(** ** Groups *)
Lemma wp_head mine h0 i (Q : option (gkind * tid * tid) -> list (lock * bool) -> Prop) : Q (group_head i w0) mine -> W h0 mine (look (group_head i)) Q.
Proof. apply wp_look0. intros w w' Hs. by apply sh_groups. Qed.
Lemma wp_n_groups mine h0 (Q : nat -> list (lock * bool) -> Prop) : Q (n_groups w0) mine -> W h0 mine (look n_groups) Q.
Proof. apply wp_look0. intros w w' Hs. by apply shape_len. Qed.
Lemma wp_group_at mine h0 i lab ff fp fn (Q : unit -> list (lock * bool) -> Prop) : gwork i lab ff fp fn -> (LGroup i, true) ∈ mine ->
  (forall k a b, group_head i w0 = Some (k, a, b) -> above (mine ++ h0) (LStore a) /\ above (mine ++ h0) (LStore b) /\ lt (LStore a) (LStore b)) ->
  Q tt mine -> W h0 mine (p_group_at i lab ff fp fn) Q.
Proof.
  intros G Hl HA HQ. apply wp_bind, wp_head. apply wp_bind. apply wp_punwrap; [done|]. intros [[k a] b] Hh.
  destruct (HA k a b Hh) as (A1 & A2 & A3).
  apply wp_bind. apply wp_storage; [done|]. apply wp_bind. apply wp_storage; [by apply above_cons|].
  apply wp_bind. apply wp_act.
  { eapply piece_group; [done|exact Hh|..].
    - do 2 right. apply elem_of_app. by left.
    - right. left.
    - left. }
  intros w [Hs Hg]. rewrite (sh_groups _ _ Hs i) in Hh.
  assert (a <> b -> (run_group_at i ff fp fn w).1 <> Block) as HN by (intros Hab; eapply nb_run_group; [apply G|apply G|apply G|exact Hh|done]).
  pose proof (ok_run_group i ff fp fn (gk_of _ _ _ _ _ G) (gk_op _ _ _ _ _ G) (gk_on _ _ _ _ _ G) w) as HO.
  destruct (run_group_at i ff fp fn w) as [[[]| | |] w']; cbn [fst snd] in *.
  - apply wp_bind. eapply wp_rel; [done|]. by eapply wp_rel.
  - done.
  - intros Hp. by destruct (HO (Hg Hp)).
  - destruct (decide (a = b)) as [->|Hab]; [by exists (LStore b)|by destruct (HN Hab)].
Qed.
Lemma wp_each mine h0 gs lab ff fp fn (P : nat -> bool) m0 (Q : unit -> list (lock * bool) -> Prop) :
  (forall i, gwork i (lab i) ff fp fn) -> mine ≡ₚ gholds gs ++ m0 -> (forall i, i ∈ gs -> P i = true /\ i < n_groups w0) ->
  turns_ok (m0 ++ h0) P -> Q tt m0 -> W h0 mine (p_each_group gs lab ff fp fn) Q.
Proof.
  intros G HP Hgs HT HQ. revert mine HP. induction gs as [|i gs IH]; intros mine HP.
  - apply (wp_perm _ _ _ _ _ m0); [by symmetry|]. by apply wp_ret.
  - unfold p_each_group. cbn [pfor]. apply wp_bind, wp_bind. apply wp_group_at; [done|rewrite HP; left| |].
    + intros k a b Hh. destruct (Hgs i) as [Pi Hi]; [left|]. destruct (HT i k a b Hh Pi) as (A & B & C & D).
      assert (forall l, (l = LStore a \/ l = LStore b) -> above (mine ++ h0) l) as HA.
      { intros l Hl. apply (above_perm _ ((gholds (i :: gs) ++ m0) ++ h0)); [by rewrite HP|]. rewrite <- app_assoc. apply above_app. split.
        - apply above_gholds. intros j Hj. destruct (Hgs j Hj) as [Pj Hj']. destruct (D j Hj' Pj). naive_solver.
        - naive_solver. }
      auto.
    + eapply wp_rel; [exact HP|]. apply IH; [|done]. intros j Hj. apply Hgs. by right.
Qed.

Lemma listed_cons t i n : listed t i (S n) = if with_ty t i then i :: listed t (S i) n else listed t (S i) n.
Proof. unfold listed. cbn [seq]. rewrite filter_cons. destruct (with_ty t i); by destruct (decide _). Qed.
Lemma listed_elem t i n j : j ∈ listed t i n <-> with_ty t j = true /\ i <= j < i + n.
Proof. unfold listed. rewrite elem_of_list_filter, elem_of_seq. done. Qed.
Lemma wp_groups t i n mine h0 (Q : list nat -> list (lock * bool) -> Prop) : i + n = n_groups w0 ->
  (forall j, i <= j < n_groups w0 -> above (mine ++ h0) (LGroup j)) ->
  (forall j j', j < j' < n_groups w0 -> with_ty t j = true -> lt (LGroup j) (LGroup j')) ->
  Q (listed t i n) (gholds (listed t i n) ++ mine) -> W h0 mine (p_groups t i n) Q.
Proof.
  intros Hn HA HL HQ. revert i mine Q Hn HA HQ. induction n as [|n IH]; intros i mine Q Hn HA HQ; [by apply wp_ret|].
  cbn [p_groups]. rewrite listed_cons in HQ.
  apply wp_bind, wp_acq; [apply HA; lia|]. apply wp_bind, wp_head. apply wp_bind. eapply wp_rel; [done|].
  change (match group_head i w0 with Some (_, a, b) => (a =? t) || (b =? t) | None => false end) with (with_ty t i).
  destruct (with_ty t i) eqn:Ht.
  - apply wp_bind, wp_acq; [apply HA; lia|]. apply wp_bind, IH; [lia| |].
    + intros j Hj. apply above_cons. split; [apply HL; [lia|done]|apply HA; lia].
    + exists (gholds (i :: listed t (S i) n) ++ mine). split; [|done].
      apply (Permutation_middle (gholds (listed t (S i) n))).
  - apply IH; [lia| |done]. intros j Hj. apply HA. lia.
Qed.

(** ** Attach, detach *)
Definition change_ok hs t : Prop :=
  above hs (LStore t) /\ groups_ok hs (with_ty t) /\ turns_ok hs (with_ty t).
Lemma wp_handle_attach mine h0 t id v (Q : unit -> list (lock * bool) -> Prop) : change_ok (mine ++ h0) t -> Q tt mine ->
  W h0 mine (p_handle_attach t id v) Q.
Proof.
  intros (H1 & (H2 & H2') & H3) HQ. apply wp_bind, wp_registered. apply wp_bind. apply wp_passert; [done|]. intros _.
  apply wp_bind, wp_acq; [done|]. apply wp_bind. apply wp_act_ok; [apply piece_put; left|apply ok_storage_mut, ok_add|apply nb_storage_mut, nb_add|].
  intros _. apply wp_bind. eapply wp_rel; [done|]. apply wp_bind, wp_n_groups. apply wp_bind, wp_groups; [done| |done|].
  - intros j Hj. apply H2. lia.
  - eapply wp_each; [intros i; apply gwork_add|reflexivity| |exact H3|done]. intros i [? ?]%listed_elem. split; [done|lia].
Qed.
Lemma wp_handle_detach mine h0 t id (Q : option V -> list (lock * bool) -> Prop) : change_ok (mine ++ h0) t -> (forall r, Q r mine) ->
  W h0 mine (p_handle_detach t id) Q.
Proof.
  intros (H1 & (H2 & H2') & H3) HQ. apply wp_bind, wp_registered. apply wp_bind. apply wp_passert; [done|]. intros _.
  apply wp_bind, wp_n_groups. apply wp_bind, wp_groups; [done| |done|].
  - intros j Hj. apply H2. lia.
  - apply wp_bind. eapply wp_each; [intros i; apply gwork_leave|reflexivity| |exact H3|].
    { intros i [? ?]%listed_elem. split; [done|lia]. }
    apply wp_bind, wp_acq; [done|]. apply wp_bind. apply wp_act_ok; [apply piece_take; left|apply ok_storage_mut, ok_remove|apply nb_storage_mut, nb_remove|].
    intros r. apply wp_bind. eapply wp_rel; [done|]. by apply wp_ret.
Qed.
(** a batch attach panics or adds, never is undefined behaviour *)
Lemma batch_noub l (vs : list V) s : (ss_add_batch l vs s).1 <> UB.
Proof.
  assert (ok (fun _ => True) (ss_add_batch l vs)) as H; [|by apply ok_noub]. unfold ss_add_batch.
  repeat first [progress intros|match goal with |- ok _ (bind _ _) => apply ok_bind | |- ok _ get => apply ok_get | |- ok _ (ret _) => apply ok_ret
   | |- ok _ (put _) => apply ok_put
   | |- ok _ (assert _) => apply ok_assert | |- ok _ (unwrap _) => apply ok_unwrap | |- ok _ (for_each _ _) => apply ok_for_each
   | |- ok _ (for_range _ _ _) => apply ok_for_range
   | |- ok _ (match ?b with _ => _ end) => destruct b end].
Qed.
Lemma wp_batch mine h0 lo hi t vs (Q : unit -> list (lock * bool) -> Prop) : above (mine ++ h0) (LStore t) -> Q tt mine ->
  W h0 mine (p_batch lo hi t vs) Q.
Proof.
  intros HA HQ. apply wp_bind. apply wp_passert; [done|]. intros _. apply wp_bind, wp_storage; [done|]. apply wp_bind.
  apply wp_act; [apply piece_batch; left|]. intros w [_ Hg]. unfold storage_mut. destruct (w_comps w !! t) as [st|] eqn:E; [|done].
  destruct (st_ty st =? t) eqn:Et; cbn [fst snd].
  - pose proof (batch_noub (seq lo (hi - lo)) vs (st_set st)) as U. pose proof (nb_batch (seq lo (hi - lo)) vs (st_set st)) as N.
    destruct (ss_add_batch _ _ _) as [[[]| | |] s']; cbn [fst snd] in *; try done. by eapply wp_rel.
  - intros Hp. apply Nat.eqb_neq in Et. by destruct (gd_st w (Hg Hp) t st E).
Qed.

(** ** Remove *)
Definition all_g (i : nat) : bool := true.
Lemma wp_find_in id i n mine h0 (Q : list nat -> list (lock * bool) -> Prop) : i + n = n_groups w0 ->
  (forall j, i <= j < n_groups w0 -> above (mine ++ h0) (LGroup j)) ->
  (forall j k a b, i <= j < n_groups w0 -> group_head j w0 = Some (k, a, b) ->
     above (mine ++ h0) (LStore a) /\ above (mine ++ h0) (LStore b) /\ lt (LStore a) (LStore b)) ->
  (forall j j', j < j' < n_groups w0 -> lt (LGroup j) (LGroup j')) ->
  (forall j j' k a b, j < n_groups w0 -> group_head j' w0 = Some (k, a, b) -> lt (LGroup j) (LStore a) /\ lt (LGroup j) (LStore b)) ->
  (forall l, (forall j, j ∈ l -> j < n_groups w0) -> Q l (gholds l ++ mine)) -> W h0 mine (p_find_in id i n) Q.
Proof.
  intros Hn HA HB HL HS HQ. revert i mine Q Hn HA HB HQ. induction n as [|n IH]; intros i mine Q Hn HA HB HQ.
  { apply wp_ret. apply (HQ []). by intros j ?%elem_of_nil. }
  cbn [p_find_in]. apply wp_bind, wp_acq; [apply HA; lia|]. apply wp_bind, wp_head. apply wp_bind. apply wp_punwrap; [done|].
  intros [[k a] b] Hh. destruct (HB i k a b) as (A1 & A2 & A3); [lia|done|]. destruct (HS i i k a b) as [S1 S2]; [lia|done|].
  apply wp_bind, wp_storage; [by apply above_cons|]. apply wp_bind, wp_storage; [apply above_cons; split; [done|by apply above_cons]|].
  apply wp_bind, wp_ask.
  { intros w w' Hw [Hs Ha]. assert (w_groups w !! i = w_groups w' !! i) as E1 by (apply (Ha (LGroup i) false); do 2 right; left).
    assert (w_comps w !! a = w_comps w' !! a) as E2 by (apply (Ha (LStore a) false); right; left).
    assert (w_comps w !! b = w_comps w' !! b) as E3 by (apply (Ha (LStore b) false); left).
    unfold in_group_at. rewrite (sh_groups _ _ Hw i) in Hh. unfold group_head in Hh. rewrite <- E1.
    destruct (w_groups w !! i) as [[d|d|d]|]; [..|done]; injection Hh as <- <- <-; simpl; by rewrite E2, E3. }
  intros w _.
  assert (forall need : bool, W h0 ((LStore b, false) :: (LStore a, false) :: (LGroup i, false) :: mine)
    (rel (LStore b) false ;;; rel (LStore a) false ;;; rel (LGroup i) false ;;;
      (if need then acq (LGroup i) true ;;; do! l <- p_find_in id (S i) n in PRet (i :: l) else p_find_in id (S i) n)) Q) as HK.
  { intros need. apply wp_bind. eapply wp_rel; [done|]. apply wp_bind. eapply wp_rel; [done|]. apply wp_bind. eapply wp_rel; [done|].
    destruct need.
    - apply wp_bind, wp_acq; [apply HA; lia|]. apply wp_bind, IH; [lia| | |].
      + intros j Hj. apply above_cons. split; [apply HL; lia|apply HA; lia].
      + intros j k' a' b' Hj Hh'. destruct (HB j k' a' b') as (B1 & B2 & B3); [lia|done|]. destruct (HS i j k' a' b') as [S3 S4]; [lia|done|].
        split; [by apply above_cons|]. split; [by apply above_cons|done].
      + intros l Hl. exists (gholds (i :: l) ++ mine). split; [apply (Permutation_middle (gholds l))|]. apply HQ. intros j [->|Hj]%elem_of_cons; [lia|auto].
    - apply IH; [lia| | |done]; intros; [apply HA|eapply HB; [|done]]; lia. }
  unfold in_group_at. destruct (w_groups w !! i) as [g|]; [|done]. destruct (g_types g) as [ta tb].
  destruct (w_comps w !! ta) as [sa|]; [|done]. destruct (w_comps w !! tb) as [sb|]; [|done].
  pose proof (in_noub g (st_set sa) (st_set sb) id) as U.
  assert (g_in_group g (st_set sa) (st_set sb) id <> Block) as N by (destruct g; [apply nb_full_in|apply nb_part_in|apply nb_non_in]).
  destruct (g_in_group g _ _ id) as [need| | |]; try done.
Qed.
Definition stores_ok hs (ord : list tid) : Prop :=
  (forall t, t ∈ ord -> above hs (LStore t)) /\ StronglySorted (fun t t' => lt (LStore t) (LStore t')) ord.
Lemma wp_find_storages id ord mine h0 (Q : list tid -> list (lock * bool) -> Prop) : stores_ok (mine ++ h0) ord ->
  (forall l, Q l (sholds l ++ mine)) -> W h0 mine (p_find_storages id ord) Q.
Proof.
  intros [HA HS] HQ. revert mine Q HA HQ. induction ord as [|t ord IH]; intros mine Q HA HQ; [apply wp_ret, (HQ [])|].
  apply StronglySorted_inv in HS as [HS HF]. rewrite Forall_forall in HF. cbn [p_find_storages].
  apply wp_bind, wp_acq; [apply HA; left|]. apply wp_bind, wp_look.
  { intros w w' _ [_ Ha]. unfold storage_has. by rewrite (Ha (LStore t) false) by left. }
  intros w _. apply wp_bind. eapply wp_rel; [done|]. destruct (storage_has w id t).
  - apply wp_bind, wp_acq; [apply HA; left|]. apply wp_bind, IH; [done| |].
    + intros t' Ht'. apply above_cons. split; [by apply HF|apply HA; by right].
    + intros l. exists (sholds (t :: l) ++ mine). split; [apply (Permutation_middle (sholds l))|done].
  - apply IH; [done| |done]. intros t' Ht'. apply HA. by right.
Qed.
Definition remove_ok hs ord : Prop :=
  above hs LMan /\ groups_ok hs all_g /\ turns_ok hs all_g /\ stores_ok hs ord.
Lemma wp_remove mine h0 id ord (Q : unit -> list (lock * bool) -> Prop) : remove_ok (mine ++ h0) ord -> Q tt mine ->
  W h0 mine (p_remove id ord) Q.
Proof.
  intros (H1 & (H2 & H3) & H4 & H5) HQ. apply wp_bind, wp_exist; [done|]. intros b. apply wp_bind. apply wp_passert; [done|]. intros _.
  apply wp_bind, wp_n_groups. apply wp_bind, wp_find_in; [done| | | | |].
  - intros j Hj. apply H2. lia.
  - intros j k a b' Hj Hh. destruct (H4 j k a b' Hh eq_refl) as (A & B & C & D). auto.
  - intros j j' Hj. by apply H3.
  - intros j j' k a b' Hj Hh. by eapply H4.
  - intros gs Hgs. apply wp_bind. eapply wp_each; [intros i; apply gwork_kill|reflexivity| |exact H4|].
    { intros i Hi. split; [done|auto]. }
    apply wp_bind, wp_find_storages; [done|]. intros ts. apply wp_bind.
    assert (forall (Q' : unit -> list (lock * bool) -> Prop) m, m ≡ₚ sholds ts ++ mine -> Q' tt mine ->
      W h0 m (pfor ts (fun t => act (BDrop t id) (dyn_mut t (cs_remove id)) ;;; rel (LStore t) true)) Q') as HF.
    { intros Q' m HP HQ'. revert m HP. induction ts as [|t ts IH]; intros m HP; [apply (wp_perm _ _ _ _ _ mine); [by symmetry|by apply wp_ret]|].
      cbn [pfor]. apply wp_bind, wp_bind. apply wp_act_ok; [|apply ok_dyn_mut, ok_cs_remove|apply nb_dyn_mut, nb_cs_remove|].
      - apply piece_drop. apply elem_of_app. left. rewrite HP. left.
      - intros _. eapply wp_rel; [exact HP|]. by apply IH. }
    apply HF; [done|]. apply wp_bind, wp_acq; [done|]. apply wp_bind. apply wp_on_em; [apply piece_free; left|apply nb_em_remove|apply em_remove_noub|].
    intros _. by eapply wp_rel.
Qed.
End calls.

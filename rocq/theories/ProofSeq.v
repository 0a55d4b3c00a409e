(** A thread that runs while nobody else moves: the calls of ModelConc.v, taken
    lock by lock, do exactly what the calls of ModelStep.v do. *)
From stdpp Require Import prelude list gmap.
From Verif Require Import Base Api ModelSparse ModelEntity ModelGroup ModelWorld ModelQuery ModelStep ModelConc.

Section seq.
Context {V : Type}.
Notation world := (world V).
Notation prog := (prog V).
Implicit Types (w : world) (h : list (lock * bool)).

Definition fail {A B} (r : outcome A) : outcome B :=
  match r with Ret _ => Block | Panic => Panic | UB => UB | Block => Block end.

Lemma alone_bind {A B} (p : prog A) (k : A -> prog B) h w :
  alone (pbind p k) h w =
  match alone p h w with
  | (Ret a, w', h') => alone (k a) h' w'
  | (r, w', h') => (fail r, w', h')
  end.
Proof.
  revert h w. induction p as [a| | | |l x p IH|l x p IH|C lab f kk IH]; intros h w; simpl; try done.
  - destruct (conflict h l x); [done|]. apply IH.
  - destruct (f w) as [[b| | |] w0]; done || apply IH.
Qed.

Lemma conflict_perm h h' l x : h ≡ₚ h' -> conflict h l x = conflict h' l x.
Proof.
  intros H. unfold conflict. induction H; simpl; try congruence.
  destruct (_ && _), (_ && _); done.
Qed.
Lemma drop_perm h h' l x : h ≡ₚ h' -> drop_hold l x h ≡ₚ drop_hold l x h'.
Proof.
  intros H. induction H as [|y h h' H IH|y z h|]; simpl; [done| | |by etrans].
  - case_decide; [done|]. by constructor.
  - do 2 case_decide; subst; try done. by constructor.
Qed.
Lemma alone_perm {A} (p : prog A) h h' w : h ≡ₚ h' ->
  (alone p h w).1 = (alone p h' w).1 /\ (alone p h w).2 ≡ₚ (alone p h' w).2.
Proof.
  revert h h' w. induction p as [a| | | |l x p IH|l x p IH|C lab f kk IH]; intros h h' w H; simpl; try done.
  - rewrite (conflict_perm h h') by done. destruct (conflict h' l x); [done|]. apply IH. by constructor.
  - apply IH. by apply drop_perm.
  - destruct (f w) as [[b| | |] w']; try done. by apply IH.
Qed.

(** [p], run alone from guards [h] on [w], ends with outcome [r], on [w'], and
    with the guards [h'] if it returns *)
Definition runs_to {A} (p : prog A) h w (r : outcome A) w' h' : Prop :=
  exists h1, alone p h w = (r, w', h1) /\ match r with Ret _ => h1 ≡ₚ h' | _ => True end.

Lemma rt_ret {A} (a : A) h w : runs_to (PRet a) h w (Ret a) w h.
Proof. by exists h. Qed.
Lemma rt_bind {A B} (p : prog A) (k : A -> prog B) h w a w1 h1 r w' h' :
  runs_to p h w (Ret a) w1 h1 -> runs_to (k a) h1 w1 r w' h' -> runs_to (pbind p k) h w r w' h'.
Proof.
  intros (h2 & E & P) (h3 & E' & P'). destruct (alone_perm (k a) h2 h1 w1 P) as [X Y].
  unfold runs_to. rewrite alone_bind, E. destruct (alone (k a) h2 w1) as [[r2 w2] h4]. rewrite E' in X, Y. simpl in *.
  injection X as -> ->. exists h4. split; [done|]. destruct r; try done. by rewrite Y.
Qed.
Lemma rt_fail {A B} (p : prog A) (k : A -> prog B) h w r w1 h1 h' :
  runs_to p h w r w1 h1 -> (forall a, r <> Ret a) -> runs_to (pbind p k) h w (fail r) w1 h'.
Proof.
  intros (h2 & E & P) H. unfold runs_to. rewrite alone_bind, E. exists h2. destruct r; try done. by destruct (H a).
Qed.
Lemma rt_perm {A} (p : prog A) h w r w' h1 h2 : h1 ≡ₚ h2 -> runs_to p h w r w' h1 -> runs_to p h w r w' h2.
Proof. intros H (h3 & E & P). exists h3. split; [done|]. destruct r; try done. by rewrite P. Qed.
Lemma rt_acq l x h w : conflict h l x = false -> runs_to (acq l x) h w (Ret tt) w ((l, x) :: h).
Proof. intros H. eexists. unfold acq. simpl. by rewrite H. Qed.
Lemma rt_acq_block l x h w h' : conflict h l x = true -> runs_to (acq l x) h w Block w h'.
Proof. intros H. eexists. unfold acq. simpl. by rewrite H. Qed.
Lemma rt_rel l x h w : runs_to (rel l x) ((l, x) :: h) w (Ret tt) w h.
Proof. eexists. unfold rel. simpl. by rewrite decide_True. Qed.
Lemma rt_rel' l x h h' w : h ≡ₚ (l, x) :: h' -> runs_to (rel l x) h w (Ret tt) w h'.
Proof. intros P. eexists. split; [done|]. rewrite (drop_perm _ _ l x P). simpl. by rewrite decide_True. Qed.
Lemma rt_act {A} lab (m : M world A) h w : runs_to (act lab m) h w (m w).1 (m w).2 h.
Proof. unfold act, runs_to. simpl. destruct (m w) as [[a| | |] w'] eqn:E; simpl; by eexists. Qed.
Lemma rt_look {A} (f : world -> A) h w : runs_to (look f) h w (Ret (f w)) w h.
Proof. by eexists. Qed.
Lemma rt_ask {A} (f : world -> outcome A) h w : runs_to (ask f) h w (f w) w h.
Proof. unfold ask. pose proof (rt_act BRead (fun w => (f w, w)) h w). done. Qed.
Lemma rt_assert h w : runs_to (passert true) h w (Ret tt) w h.
Proof. by eexists. Qed.
Lemma rt_assert_f h w h' : runs_to (passert false) h w Panic w h'.
Proof. by eexists. Qed.

(** the result of a computation of ModelWorld.v *)
Definition runs_as {A} (p : prog A) h (m : M world A) w h' : Prop := runs_to p h w (m w).1 (m w).2 h'.
Lemma ra_bind {A B} (p : prog A) (k : A -> prog B) h (m : M world A) (km : A -> M world B) w h1 h' :
  runs_as p h m w h1 -> (forall a w1, m w = (Ret a, w1) -> runs_as (k a) h1 (km a) w1 h') ->
  runs_as (pbind p k) h (bind m km) w h'.
Proof.
  intros H1 H2. unfold runs_as, bind in *. destruct (m w) as [[a| | |] w1] eqn:E; simpl in *.
  - eapply rt_bind; [exact H1|]. by apply H2.
  - by eapply (rt_fail p k h w Panic).
  - by eapply (rt_fail p k h w UB).
  - by eapply (rt_fail p k h w Block).
Qed.
(** program steps without counterpart *)
Lemma ra_skip {A B} (p : prog A) (k : A -> prog B) h (m : M world B) w a h1 h' :
  runs_to p h w (Ret a) w h1 -> runs_as (k a) h1 m w h' -> runs_as (pbind p k) h m w h'.
Proof. intros H1 H2. eapply rt_bind; [exact H1|exact H2]. Qed.
Lemma ra_get {A} (p : prog A) h (m : world -> M world A) w h' :
  runs_as p h (m w) w h' -> runs_as p h (let! x := get in m x) w h'.
Proof. done. Qed.
Lemma ra_act {A} lab (m : M world A) h w : runs_as (act lab m) h m w h.
Proof. apply rt_act. Qed.
Lemma ra_ask {A} (f : world -> outcome A) h w : runs_as (ask f) h (lift (f w)) w h.
Proof. unfold runs_as, lift. simpl. apply rt_ask. Qed.
Lemma ra_ret {A} (a : A) h w : runs_as (PRet a) h (ret a) w h.
Proof. apply rt_ret. Qed.
Lemma ra_assert b h w : runs_as (passert b) h (assert b) w h.
Proof. destruct b; unfold runs_as; simpl; [apply rt_assert|apply rt_assert_f]. Qed.
Lemma ra_fmap {A B} (p : prog A) h (f : A -> B) (m : M world A) w h1 (k : A -> prog B) h' :
  runs_as p h m w h1 -> (forall a w1, m w = (Ret a, w1) -> runs_to (k a) h1 w1 (Ret (f a)) w1 h') ->
  runs_as (pbind p k) h (fmapM f m) w h'.
Proof. intros H1 H2. unfold fmapM. eapply ra_bind; [exact H1|]. intros a w1 E. by apply H2. Qed.

(** ** Guards *)
Definition free (l : lock) h : Prop := forall x, (l, x) ∉ h.
Lemma conflict_none h l x : (forall y, (l, y) ∈ h -> y || x = false) -> conflict h l x = false.
Proof.
  intros H. unfold conflict. apply not_true_iff_false. rewrite existsb_exists. intros ([l' y] & Hin & [H1 H2]%andb_true_iff).
  simpl in *. apply bool_decide_eq_true in H1 as ->. apply elem_of_list_In in Hin. rewrite (H y Hin) in H2. done.
Qed.
Lemma conflict_some h l x y : (l, y) ∈ h -> y || x = true -> conflict h l x = true.
Proof.
  intros H E. unfold conflict. apply existsb_exists. exists (l, y). split; [by apply elem_of_list_In|]. simpl.
  by rewrite bool_decide_true.
Qed.
Lemma conflict_free h l x : free l h -> conflict h l x = false.
Proof. intros H. apply conflict_none. intros y Hy. by destruct (H y). Qed.
Definition no_store h : Prop := forall t, free (LStore t) h.
Definition no_group h : Prop := forall i, free (LGroup i) h.
Definition glocks (gs : list nat) : list (lock * bool) := (fun i => (LGroup i, true)) <$> gs.
Definition slocks (ts : list tid) : list (lock * bool) := (fun t => (LStore t, true)) <$> ts.
Lemma no_store_glocks gs h : no_store h -> no_store (glocks gs ++ h).
Proof.
  intros H t x [Hin|Hin]%elem_of_app; [|by apply (H t x)]. unfold glocks in Hin. apply elem_of_list_fmap in Hin as (i & E & _). done.
Qed.
Lemma no_store_cons i x h : no_store h -> no_store ((LGroup i, x) :: h).
Proof. intros H t y Hin. apply elem_of_cons in Hin as [E|Hin]; [done|]. by apply (H t y). Qed.
Lemma free_cons l l' x h : l <> l' -> free l h -> free l ((l', x) :: h).
Proof. intros H F y Hin. apply elem_of_cons in Hin as [E|Hin]; [congruence|]. by apply (F y). Qed.

(** ** Groups *)
Lemma ra_group_at i lab ff fp fn h w : no_store h -> runs_as (p_group_at i lab ff fp fn) h (run_group_at i ff fp fn) w h.
Proof.
  intros F. unfold p_group_at. eapply ra_skip; [apply rt_look|]. unfold group_head.
  destruct (w_groups w !! i) as [g|] eqn:Hg.
  2:{ unfold runs_as, run_group_at. rewrite Hg. simpl. by eexists. }
  assert (exists k a b, match g with GFull d => Some (KFull, fd_a d, fd_b d) | GPart d => Some (KPart, pd_a d, pd_b d)
    | GNon d => Some (KNon, nd_a d, nd_b d) end = Some (k, a, b)) as (k & a & b & E) by (destruct g; eauto).
  assert (E' : match Some g with None => None | Some (GFull d) => Some (KFull, fd_a d, fd_b d) | Some (GPart d) => Some (KPart, pd_a d, pd_b d)
    | Some (GNon d) => Some (KNon, nd_a d, nd_b d) end = Some (k, a, b)) by (destruct g; done).
  rewrite E'. clear E'. eapply ra_skip; [apply rt_ret|].
  set (xa := match k with KFull | KPart => true | KNon => false end).
  set (xb := match k with KFull => true | _ => false end).
  unfold p_storage.
  destruct (w_comps w !! a) as [sa|] eqn:Ha.
  2:{ assert (run_group_at i ff fp fn w = (Panic, w)) as X.
      { unfold run_group_at. rewrite Hg. destruct g; injection E as <- <- <-; by rewrite Ha. }
      unfold runs_as. rewrite X. eexists. rewrite !alone_bind. simpl. unfold has_registered. rewrite Ha.
      rewrite bool_decide_false by (by intros [? ?]). done. }
  assert (has_registered a w = true) as Ra by (unfold has_registered; rewrite Ha; by apply bool_decide_true).
  assert (runs_to (do! b0 <- look (has_registered a) in passert b0;;; acq (LStore a) xa) h w (Ret tt) w ((LStore a, xa) :: h)) as H1.
  { eapply rt_bind; [apply rt_look|]. rewrite Ra. eapply rt_bind; [apply rt_assert|]. apply rt_acq. apply conflict_free, F. }
  eapply ra_skip; [exact H1|].
  destruct (decide (a = b /\ xa = true)) as [[<- Hx]|Hne].
  { assert (run_group_at i ff fp fn w = (Block, w)) as X.
    { unfold run_group_at. rewrite Hg. destruct g; injection E as <- -> Eb; try done; rewrite Ha, Eb, Nat.eqb_refl; done. }
    unfold runs_as. rewrite X.
    assert (runs_to (do! b <- look (has_registered a) in passert b;;; acq (LStore a) xb) ((LStore a, xa) :: h) w Block w []) as H2.
    { eapply rt_bind; [apply rt_look|]. rewrite Ra. eapply rt_bind; [apply rt_assert|]. apply rt_acq_block.
      eapply conflict_some; [by apply elem_of_list_here|]. by rewrite Hx. }
    by eapply (rt_fail _ _ _ _ Block). }
  destruct (w_comps w !! b) as [sb|] eqn:Hb.
  2:{ assert (run_group_at i ff fp fn w = (Panic, w)) as X.
      { unfold run_group_at. rewrite Hg. destruct g; injection E as <- <- <-; rewrite Ha; simpl in *;
        [destruct (fd_a d =? fd_b d) eqn:Q|destruct (pd_a d =? pd_b d) eqn:Q|]; try (apply Nat.eqb_eq in Q; congruence); by rewrite Hb. }
      unfold runs_as. rewrite X. eexists. rewrite !alone_bind. simpl. unfold has_registered. rewrite Hb.
      rewrite bool_decide_false by (by intros [? ?]). done. }
  assert (has_registered b w = true) as Rb by (unfold has_registered; rewrite Hb; by apply bool_decide_true).
  assert (runs_to (do! b0 <- look (has_registered b) in passert b0;;; acq (LStore b) xb) ((LStore a, xa) :: h) w (Ret tt) w
     ((LStore b, xb) :: (LStore a, xa) :: h)) as H2.
  { eapply rt_bind; [apply rt_look|]. rewrite Rb. eapply rt_bind; [apply rt_assert|]. apply rt_acq.
    apply conflict_none. intros y [Ey|Hy]%elem_of_cons; [|by destruct (F b y)]. injection Ey as <- ->.
    destruct xa eqn:Ex; [by destruct Hne|]. unfold xa, xb in *. by destruct k. }
  eapply ra_skip; [exact H2|].
  pose proof (rt_act lab (run_group_at i ff fp fn) ((LStore b, xb) :: (LStore a, xa) :: h) w) as H3.
  unfold runs_as. destruct (run_group_at i ff fp fn w) as [[u| | |] w1]; cbn [fst snd] in *.
  - eapply rt_bind; [exact H3|]. eapply rt_bind; [apply rt_rel|]. destruct u. apply rt_rel.
  - by eapply (rt_fail _ _ _ _ Panic).
  - by eapply (rt_fail _ _ _ _ UB).
  - by eapply (rt_fail _ _ _ _ Block).
Qed.

Lemma group_head_types i w g : w_groups w !! i = Some g ->
  exists k, group_head i w = Some (k, (g_types g).1, (g_types g).2).
Proof. intros H. unfold group_head. rewrite H. destruct g; by eexists. Qed.

Lemma rt_groups t i n h w : i + n = length (w_groups w) -> (forall j, i <= j -> free (LGroup j) h) ->
  runs_to (p_groups t i n) h w (Ret (groups_with t (drop i (w_groups w)) i)) w (glocks (groups_with t (drop i (w_groups w)) i) ++ h).
Proof.
  revert i h. induction n as [|n IH]; intros i h Hl F; cbn [p_groups].
  - rewrite drop_ge by lia. simpl. apply rt_ret.
  - destruct (lookup_lt_is_Some_2 (w_groups w) i) as [g Hg]; [lia|]. rewrite (drop_S _ g i Hg). cbn [groups_with].
    destruct (g_types g) as [a b] eqn:Et.
    eapply rt_bind; [apply rt_acq, conflict_free, F; lia|]. eapply rt_bind; [apply rt_look|]. eapply rt_bind; [apply rt_rel|].
    destruct (group_head_types i w g Hg) as [k Hk]. rewrite Hk, Et. cbn [fst snd].
    destruct ((a =? t) || (b =? t)) eqn:E.
    + eapply rt_bind; [apply rt_acq, conflict_free, F; lia|].
      eapply rt_bind; [apply IH; [lia|]|].
      { intros j Hj. apply free_cons; [intros [= ->]; lia|apply F; lia]. }
      eapply rt_perm; [|apply rt_ret]. simpl. by rewrite Permutation_middle.
    + apply IH; [lia|]. intros j Hj. apply F. lia.
Qed.

Lemma ra_each_group gs lab ff fp fn h h0 w : h ≡ₚ glocks gs ++ h0 -> no_store h0 ->
  runs_as (p_each_group gs lab ff fp fn) h (for_each gs (fun i => run_group_at i ff fp fn)) w h0.
Proof.
  revert h w. unfold p_each_group. induction gs as [|i gs IH]; intros h w P F; cbn [pfor for_each].
  - unfold runs_as. simpl. by exists h.
  - eapply ra_bind; [|intros a w1 E; apply (IH (glocks gs ++ h0)); done].
    pose proof (ra_group_at i (lab i) ff fp fn h w) as H. unfold runs_as in *.
    destruct (run_group_at i ff fp fn w) as [[[]| | |] w1]; cbn [fst snd] in *.
    + eapply rt_bind; [apply H|]. 2:{ apply rt_rel'. by rewrite P. }
      intros t x Hin. rewrite P in Hin. by apply (no_store_glocks (i :: gs) h0 F t x) in Hin.
    + eapply (rt_fail _ _ _ _ Panic); [apply H|done]. intros t x Hin. rewrite P in Hin. by apply (no_store_glocks (i :: gs) h0 F t x) in Hin.
    + eapply (rt_fail _ _ _ _ UB); [apply H|done]. intros t x Hin. rewrite P in Hin. by apply (no_store_glocks (i :: gs) h0 F t x) in Hin.
    + eapply (rt_fail _ _ _ _ Block); [apply H|done]. intros t x Hin. rewrite P in Hin. by apply (no_store_glocks (i :: gs) h0 F t x) in Hin.
Qed.

(** ** Entities *)
Lemma ra_then {A} (p : prog A) (k : A -> prog A) h (m : M world A) w h1 h' :
  runs_as p h m w h1 -> (forall a w1, m w = (Ret a, w1) -> runs_to (k a) h1 w1 (Ret a) w1 h') -> runs_as (pbind p k) h m w h'.
Proof.
  intros H1 H2. unfold runs_as in *. destruct (m w) as [[a| | |] w1] eqn:E; cbn [fst snd] in *.
  - eapply rt_bind; [exact H1|]. by apply H2.
  - by eapply (rt_fail p k h w Panic).
  - by eapply (rt_fail p k h w UB).
  - by eapply (rt_fail p k h w Block).
Qed.
Lemma ra_ext {A} (p : prog A) h (m m' : M world A) w h' : m w = m' w -> runs_as p h m w h' -> runs_as p h m' w h'.
Proof. unfold runs_as. by intros ->. Qed.

Lemma ra_exist id h w : conflict h LMan false = false -> runs_as (p_exist id) h (lift (exist id w)) w h.
Proof.
  intros H. unfold p_exist. eapply ra_skip; [by apply rt_acq|]. eapply ra_then; [apply ra_ask|].
  intros b w1 E. eapply rt_bind; [apply rt_rel|]. apply rt_ret.
Qed.
(** [entity(id)] and the assertion made of it *)
Lemma ra_entity {B} id h (k : prog B) (m : M world B) w h' : conflict h LMan false = false ->
  (runs_as k ((LMan, false) :: h) m w h') ->
  runs_as (do! b <- p_entity id in passert b ;;; k) h (let! b := lift (exist id w) in assert b >>! m) w h'.
Proof.
  intros H K. unfold p_entity.
  assert (runs_to (acq LMan false;;; do! b <- ask (exist id) in if b then PRet true else rel LMan false;;; PRet false) h w
    (exist id w) w match exist id w with Ret true => (LMan, false) :: h | _ => h end) as X.
  { eapply rt_bind; [by apply rt_acq|]. pose proof (rt_ask (exist id) ((LMan, false) :: h) w) as Y.
    destruct (exist id w) as [[]| | |].
    - eapply rt_bind; [exact Y|apply rt_ret].
    - eapply rt_bind; [exact Y|]. eapply rt_bind; [apply rt_rel|apply rt_ret].
    - by eapply (rt_fail _ _ _ _ Panic).
    - by eapply (rt_fail _ _ _ _ UB).
    - by eapply (rt_fail _ _ _ _ Block). }
  unfold runs_as, bind, lift. destruct (exist id w) as [[]| | |].
  - eapply rt_bind; [exact X|]. eapply rt_bind; [apply rt_assert|]. exact K.
  - eapply rt_bind; [exact X|]. by eapply (rt_fail _ _ _ _ Panic); [apply (rt_assert_f _ _ [])|].
  - by eapply (rt_fail _ _ _ _ Panic).
  - by eapply (rt_fail _ _ _ _ UB).
  - by eapply (rt_fail _ _ _ _ Block).
Qed.

Lemma ra_handle_attach t id v h w : no_store h -> no_group h ->
  runs_as (p_handle_attach t id v) h (entity_attach t id v) w h.
Proof.
  intros F G. unfold p_handle_attach, entity_attach. apply ra_get.
  eapply ra_skip; [apply rt_look|]. eapply ra_bind; [apply ra_assert|]. intros [] w1 E.
  assert (w1 = w) as -> by (destruct (has_registered t w); by injection E). clear E.
  eapply ra_skip; [apply rt_acq, conflict_free, F|]. eapply ra_bind; [apply ra_act|]. intros [] w1 E. apply ra_get.
  eapply ra_skip; [apply rt_rel|]. eapply ra_skip; [apply rt_look|].
  eapply ra_skip.
  { apply rt_groups; [done|]. intros j _. apply G. }
  rewrite drop_0. by apply ra_each_group.
Qed.
Lemma ra_handle_detach t id h w : no_store h -> no_group h ->
  runs_as (p_handle_detach t id) h (entity_detach t id) w h.
Proof.
  intros F G. unfold p_handle_detach, entity_detach. apply ra_get.
  eapply ra_skip; [apply rt_look|]. eapply ra_bind; [apply ra_assert|]. intros [] w1 E.
  assert (w1 = w) as -> by (destruct (has_registered t w); by injection E). clear E.
  eapply ra_skip; [apply rt_look|].
  eapply ra_skip.
  { apply rt_groups; [done|]. intros j _. apply G. }
  rewrite drop_0. eapply ra_bind; [by apply ra_each_group|]. intros [] w1 E.
  eapply ra_skip; [apply rt_acq, conflict_free, F|]. eapply ra_then; [apply ra_act|].
  intros r w2 E2. eapply rt_bind; [apply rt_rel|]. apply rt_ret.
Qed.
Lemma ra_batch lo hi t vs h w : no_store h -> runs_as (p_batch lo hi t vs) h (entities_attach lo hi t vs) w h.
Proof.
  intros F. unfold p_batch, entities_attach. eapply ra_bind; [apply ra_assert|]. intros [] w1 E.
  assert (w1 = w) as -> by (destruct (_ =? _); by injection E). clear E. unfold p_storage.
  destruct (has_registered t w) eqn:R.
  - eapply ra_skip.
    { eapply rt_bind; [apply rt_look|]. rewrite R. eapply rt_bind; [apply rt_assert|]. apply rt_acq, conflict_free, F. }
    eapply ra_then; [apply ra_act|]. intros [] w1 E. apply rt_rel.
  - unfold runs_as, storage_mut. apply bool_decide_eq_false in R. destruct (w_comps w !! t) eqn:E; [by destruct R|].
    eapply (rt_fail _ _ _ _ Panic); [|done]. eapply rt_bind; [apply rt_look|].
    unfold has_registered. rewrite E. by eapply (rt_fail _ _ _ _ Panic); [apply (rt_assert_f _ _ [])|].
    Unshelve. exact [].
Qed.

(** ** remove_entity *)
Definition locked {A} (r : outcome A) (f : A -> list (lock * bool)) : list (lock * bool) :=
  match r with Ret l => f l | _ => [] end.
Lemma rt_storage t x h w : conflict h (LStore t) x = false -> has_registered t w = true ->
  runs_to (p_storage t x) h w (Ret tt) w ((LStore t, x) :: h).
Proof.
  intros C R. unfold p_storage. eapply rt_bind; [apply rt_look|]. rewrite R. eapply rt_bind; [apply rt_assert|]. by apply rt_acq.
Qed.
Lemma rt_storage_f t x h w h' : has_registered t w = false -> runs_to (p_storage t x) h w Panic w h'.
Proof.
  intros R. unfold p_storage. eapply rt_bind; [apply rt_look|]. rewrite R. by eapply (rt_fail _ _ _ _ Panic); [apply (rt_assert_f _ _ [])|].
Qed.
Lemma reg_lookup t w : has_registered t w = bool_decide (is_Some (w_comps w !! t)).
Proof. done. Qed.

Lemma rt_find_in id i n h w : i + n = length (w_groups w) -> (forall j, i <= j -> free (LGroup j) h) -> no_store h ->
  runs_to (p_find_in id i n) h w (collect_in_group w id (drop i (w_groups w)) i) w
    (locked (collect_in_group w id (drop i (w_groups w)) i) (fun l => glocks l ++ h)).
Proof.
  revert i h. induction n as [|n IH]; intros i h Hl F Fs; cbn [p_find_in].
  - rewrite drop_ge by lia. simpl. apply rt_ret.
  - destruct (lookup_lt_is_Some_2 (w_groups w) i) as [g Hg]; [lia|]. rewrite (drop_S _ g i Hg). cbn [collect_in_group].
    destruct (group_head_types i w g Hg) as [k Hk].
    destruct (g_types g) as [a b] eqn:Et. cbn [fst snd] in Hk.
    eapply rt_bind; [apply rt_acq, conflict_free, F; lia|]. eapply rt_bind; [apply rt_look|]. rewrite Hk.
    eapply rt_bind; [apply rt_ret|]. cbn beta iota.
    assert (no_store ((LGroup i, false) :: h)) as S1 by (by apply no_store_cons).
    destruct (w_comps w !! a) as [sa|] eqn:Ha.
    2:{ eapply (rt_fail _ _ _ _ Panic); [|done]. apply rt_storage_f with (h' := []). rewrite reg_lookup, Ha. apply bool_decide_false. by intros [? ?]. }
    eapply rt_bind; [apply rt_storage; [apply conflict_free, S1|rewrite reg_lookup, Ha; by apply bool_decide_true]|].
    destruct (w_comps w !! b) as [sb|] eqn:Hb.
    2:{ eapply (rt_fail _ _ _ _ Panic); [|done]. apply rt_storage_f with (h' := []). rewrite reg_lookup, Hb. apply bool_decide_false. by intros [? ?]. }
    eapply rt_bind.
    { apply rt_storage; [|rewrite reg_lookup, Hb; by apply bool_decide_true]. apply conflict_none.
      intros y [Ey|Hy]%elem_of_cons; [by injection Ey as _ ->|]. by apply (S1 b y) in Hy. }
    assert (in_group_at i id w = g_in_group g (st_set sa) (st_set sb) id) as Ei.
    { unfold in_group_at. by rewrite Hg, Et, Ha, Hb. }
    pose proof (rt_ask (in_group_at i id) ((LStore b, false) :: (LStore a, false) :: (LGroup i, false) :: h) w) as Hask.
    rewrite Ei in Hask. destruct (g_in_group g (st_set sa) (st_set sb) id) as [need| | |].
    2:{ by eapply (rt_fail _ _ _ _ Panic). }
    2:{ by eapply (rt_fail _ _ _ _ UB). }
    2:{ by eapply (rt_fail _ _ _ _ Block). }
    eapply rt_bind; [exact Hask|]. eapply rt_bind; [apply rt_rel|]. eapply rt_bind; [apply rt_rel|]. eapply rt_bind; [apply rt_rel|].
    destruct need.
    + eapply rt_bind; [apply rt_acq, conflict_free, F; lia|].
      assert (forall j, S i <= j -> free (LGroup j) ((LGroup i, true) :: h)) as F1.
      { intros j Hj. apply free_cons; [intros [= ->]; lia|apply F; lia]. }
      specialize (IH (Datatypes.S i) ((LGroup i, true) :: h) ltac:(lia) F1 ltac:(by apply no_store_cons)).
      destruct (collect_in_group w id (drop (Datatypes.S i) (w_groups w)) (Datatypes.S i)) as [l| | |].
      * eapply rt_bind; [exact IH|]. eapply rt_perm; [|apply rt_ret]. simpl. by rewrite Permutation_middle.
      * by eapply (rt_fail _ _ _ _ Panic).
      * by eapply (rt_fail _ _ _ _ UB).
      * by eapply (rt_fail _ _ _ _ Block).
    + specialize (IH (Datatypes.S i) h ltac:(lia) ltac:(intros j Hj; apply F; lia) Fs).
      by destruct (collect_in_group w id (drop (Datatypes.S i) (w_groups w)) (Datatypes.S i)) as [l| | |].
Qed.

Lemma rt_find_storages id ord h w : NoDup ord -> (forall t, t ∈ ord -> free (LStore t) h) ->
  runs_to (p_find_storages id ord) h w (Ret (storages_with w id ord)) w (slocks (storages_with w id ord) ++ h).
Proof.
  revert h. induction ord as [|t ord IH]; intros h N F; cbn [p_find_storages].
  - apply rt_ret.
  - apply NoDup_cons in N as [Nt N]. unfold storages_with. rewrite filter_cons.
    eapply rt_bind; [apply rt_acq, conflict_free, F; by left|]. eapply rt_bind; [apply rt_look|]. eapply rt_bind; [apply rt_rel|].
    destruct (storage_has w id t) eqn:E.
    + rewrite decide_True by done.
      eapply rt_bind; [apply rt_acq, conflict_free, F; by left|]. eapply rt_bind.
      { apply IH; [done|]. intros u Hu. apply free_cons; [intros [= ->]; done|]. apply F. by right. }
      eapply rt_perm; [|apply rt_ret]. simpl. by rewrite Permutation_middle.
    + rewrite decide_False by done. apply IH; [done|]. intros u Hu. apply F. by right.
Qed.
Lemma ra_drops id ts h h0 w : h ≡ₚ slocks ts ++ h0 ->
  runs_as (pfor ts (fun t => act (BDrop t id) (dyn_mut t (cs_remove id)) ;;; rel (LStore t) true)) h
    (for_each ts (fun t => dyn_mut t (cs_remove id))) w h0.
Proof.
  revert h w. induction ts as [|t ts IH]; intros h w P; cbn [pfor for_each].
  - unfold runs_as. simpl. by exists h.
  - eapply ra_bind; [|intros a w1 E; apply (IH (slocks ts ++ h0)); done].
    eapply ra_then; [apply ra_act|]. intros [] w1 E. apply rt_rel'. by rewrite P.
Qed.

Lemma ra_remove id ord h w : NoDup ord -> free LMan h -> no_store h -> no_group h ->
  runs_as (p_remove id ord) h (remove_entity id ord) w h.
Proof.
  intros N Fm F G. unfold p_remove, remove_entity. apply ra_get.
  eapply ra_bind; [apply ra_exist, conflict_free, Fm|]. intros b w1 E.
  assert (w1 = w) as -> by (unfold lift in E; by injection E). clear E.
  eapply ra_bind; [apply ra_assert|]. intros [] w1 E. assert (w1 = w) as -> by (destruct b; by injection E). clear E.
  eapply ra_skip; [apply rt_look|].
  pose proof (rt_find_in id 0 (length (w_groups w)) h w eq_refl ltac:(intros j _; apply G) F) as X. rewrite drop_0 in X.
  eapply ra_bind; [exact X|]. intros gs w1 E. unfold lift in E.
  assert (collect_in_group w id (w_groups w) 0 = Ret gs) as Eg by congruence. assert (w1 = w) as -> by congruence.
  rewrite Eg in *. clear E X. unfold locked.
  eapply ra_bind; [by apply ra_each_group|]. intros [] w1 E. apply ra_get.
  eapply ra_skip; [apply rt_find_storages; [done|]; intros t _; apply F|].
  eapply ra_bind; [by apply ra_drops|]. intros [] w2 E2.
  eapply ra_skip; [apply rt_acq, conflict_free, Fm|]. eapply ra_then; [apply ra_act|]. intros [] w3 E3. apply rt_rel.
Qed.
End seq.

(** Queries of a thread nobody disturbs; all calls. *)
From stdpp Require Import prelude list gmap.
From Verif Require Import Base Api ModelSparse ModelEntity ModelGroup ModelWorld ModelQuery ModelStep ModelConc ProofSeq.

Section seq2.
Context {V : Type}.
Notation world := (world V).
Notation prog := (prog V).
Implicit Types (w : world) (h : list (lock * bool)) (hd : held).

(** the guards [h] are those of the query being opened ([hd]), as far as
    storages are concerned; no group is locked exclusively *)
Definition keeps hd h : Prop :=
  (forall t m, conflict h (LStore t) m = lock_conflict hd t m) /\ (forall i, conflict h (LGroup i) false = false).
Definition opn {A B} (m : M held A) (p : prog B) h hd w (Q : A -> B -> list (lock * bool) -> Prop) : Prop :=
  match m hd with
  | (Ret a, hd') => exists b h', runs_to p h w (Ret b) w h' /\ keeps hd' h' /\ Q a b h'
  | (r, _) => runs_to p h w (fail r) w []
  end.

Lemma keeps_perm hd h h' : h ≡ₚ h' -> keeps hd h -> keeps hd h'.
Proof. intros P [H1 H2]. split; intros; rewrite <- (conflict_perm h h') by done; auto. Qed.
Lemma opn_bind {A A' B B'} (m : M held A) (k : A -> M held A') (p : prog B) (kp : B -> prog B') h hd w Q Q' :
  opn m p h hd w Q -> (forall a b h' hd', keeps hd' h' -> Q a b h' -> opn (k a) (kp b) h' hd' w Q') ->
  opn (bind m k) (pbind p kp) h hd w Q'.
Proof.
  unfold opn, bind. intros H K. destruct (m hd) as [[a| | |] hd'].
  - destruct H as (b & h' & R & I & Hq). specialize (K a b h' hd' I Hq). destruct (k a hd') as [[a'| | |] hd2].
    + destruct K as (b' & h2 & R' & I' & Hq'). exists b', h2. split; [by eapply rt_bind|done].
    + by eapply rt_bind.
    + by eapply rt_bind.
    + by eapply rt_bind.
  - by eapply (rt_fail p kp h w Panic).
  - by eapply (rt_fail p kp h w UB).
  - by eapply (rt_fail p kp h w Block).
Qed.
(** a step of the program without counterpart, and the other way round *)
Lemma opn_skip {A B B'} (m : M held A) (p : prog B) (kp : B -> prog B') h hd w b h1 Q :
  runs_to p h w (Ret b) w h1 -> opn m (kp b) h1 hd w Q -> opn m (pbind p kp) h hd w Q.
Proof.
  unfold opn. intros R H. destruct (m hd) as [[a| | |] hd'].
  - destruct H as (b' & h2 & R' & X). exists b', h2. split; [by eapply rt_bind|done].
  - by eapply rt_bind.
  - by eapply rt_bind.
  - by eapply rt_bind.
Qed.
Lemma opn_conseq {A B} (m : M held A) (p : prog B) h hd w (Q Q' : A -> B -> list (lock * bool) -> Prop) :
  opn m p h hd w Q -> (forall a b h', Q a b h' -> Q' a b h') -> opn m p h hd w Q'.
Proof.
  unfold opn. intros H K. destruct (m hd) as [[a| | |] hd']; try done.
  destruct H as (b & h' & R & I & Hq). exists b, h'. auto.
Qed.
Lemma opn_assert b h hd w : keeps hd h -> opn (assert b) (passert b) h hd w (fun _ _ h' => h' = h).
Proof.
  intros I. unfold opn. destruct b; simpl.
  - exists tt, h. split; [apply rt_assert|done].
  - apply rt_assert_f.
Qed.
Lemma opn_lock t m h hd w : keeps hd h ->
  opn (ModelQuery.lock t m) (acq (LStore t) m) h hd w (fun _ _ h' => h' = (LStore t, m) :: h).
Proof.
  intros [I1 I2]. unfold opn, ModelQuery.lock, bind, get. rewrite <- I1. destruct (conflict h (LStore t) m) eqn:E.
  - by apply rt_acq_block.
  - simpl. exists tt, ((LStore t, m) :: h). split; [by apply rt_acq|]. split; [|done]. split.
    + intros t' m'. unfold conflict, lock_conflict in *. simpl. f_equal; [|apply I1]. f_equal.
      apply Bool.eq_true_iff_eq. rewrite bool_decide_eq_true, Nat.eqb_eq. split; [by intros [= ->]|by intros ->].
    + intros i. unfold conflict in *. simpl. by rewrite I2.
Qed.
Lemma opn_downcast t h hd w : keeps hd h -> opn (downcast w t) (p_downcast t) h hd w (fun _ _ h' => h' = h).
Proof.
  intros I. unfold opn, p_downcast. pose proof (rt_ask (fun w => (downcast w t []).1) h w) as R. unfold downcast in *.
  destruct (w_comps w !! t) as [st|]; simpl in *; [|by destruct R as (h1 & R & _); exists h1].
  destruct (st_ty st =? t); simpl in *; [|by destruct R as (h1 & R & _); exists h1].
  by exists tt, h.
Qed.
Lemma opn_ret {A B} (a : A) (b : B) h hd w (Q : A -> B -> list (lock * bool) -> Prop) :
  keeps hd h -> Q a b h -> opn (ret a) (PRet b) h hd w Q.
Proof. intros I Hq. exists b, h. split; [apply rt_ret|done]. Qed.

(** ** Finding a group *)
Lemma head_eqb i w g k a b : w_groups w !! i = Some g ->
  bool_decide (group_head i w = Some (k, a, b)) = g_eqb g (new_group k a b).
Proof.
  intros H. unfold group_head. rewrite H. apply Bool.eq_true_iff_eq. rewrite bool_decide_eq_true.
  destruct g as [d|d|d], k; simpl; (rewrite ?andb_true_iff, ?Nat.eqb_eq; split; [intros [=]; try done|]); try done;
    intros [? ?]; by subst.
Qed.
Lemma rt_find_group k a b i n h w : i + n = length (w_groups w) -> (forall j, conflict h (LGroup j) false = false) ->
  runs_to (p_find_group k a b i n) h w (Ret (find_group (new_group k a b) (drop i (w_groups w)) i)) w h.
Proof.
  revert i. induction n as [|n IH]; intros i Hl F; cbn [p_find_group].
  - rewrite drop_ge by lia. apply rt_ret.
  - destruct (lookup_lt_is_Some_2 (w_groups w) i) as [g Hg]; [lia|]. rewrite (drop_S _ g i Hg). cbn [find_group].
    eapply rt_bind; [by apply rt_acq|]. eapply rt_bind; [apply rt_look|]. eapply rt_bind; [apply rt_rel|].
    rewrite (head_eqb i w g k a b Hg). destruct (g_eqb g (new_group k a b)); [apply rt_ret|]. apply IH; [lia|done].
Qed.
Lemma find_some g gs i gi : find_group g gs i = Some gi -> exists g', gs !! (gi - i) = Some g' /\ i <= gi /\ g_eqb g' g = true.
Proof.
  revert i. induction gs as [|g1 gs IH]; intros i; [done|]. cbn [find_group]. destruct (g_eqb g1 g) eqn:E.
  - intros [= <-]. exists g1. rewrite Nat.sub_diag. auto.
  - intros H. apply IH in H as (g' & H1 & H2 & H3). exists g'. split; [|split; [lia|done]].
    replace (gi - i) with (S (gi - S i)) by lia. done.
Qed.
Lemma has_find g w : has_group g w = bool_decide (is_Some (find_group g (w_groups w) 0)).
Proof.
  unfold has_group. generalize 0. induction (w_groups w) as [|g1 gs IH]; intros i; simpl.
  - done.
  - destruct (g_eqb g1 g); simpl; [done|apply IH].
Qed.

Definition opened h (J : qiter V) (x : qiter V * list (lock * bool)) h' : Prop := x.1 = J /\ h' ≡ₚ x.2 ++ h.

Lemma opn_group k ma mb a b h hd w : keeps hd h ->
  opn (query_open w (QGroup k ma mb a b)) (p_open_group k ma mb a b) h hd w (opened h).
Proof.
  intros I. unfold p_open_group. cbn [query_open].
  eapply opn_skip; [apply rt_look|]. eapply opn_bind; [by apply opn_assert|]. intros [] [] ? hd1 I1 ->.
  eapply opn_bind; [by apply opn_lock|]. intros [] [] ? hd2 I2 ->.
  eapply opn_bind; [by apply opn_lock|]. intros [] [] ? hd3 I3 ->.
  eapply opn_bind; [by apply opn_downcast|]. intros [] [] ? hd4 I4 ->.
  eapply opn_bind; [by apply opn_downcast|]. intros [] [] ? hd5 I5 ->.
  eapply opn_skip; [apply rt_look|].
  pose proof (rt_find_group k a b 0 (length (w_groups w)) ((LStore b, mb) :: (LStore a, ma) :: h) w eq_refl (proj2 I5)) as R.
  rewrite drop_0 in R. eapply opn_skip; [exact R|]. rewrite has_find.
  eapply opn_bind; [by apply opn_assert|]. intros [] [] ? hd6 I6 ->.
  eapply opn_skip; [exact R|].
  destruct (find_group (new_group k a b) (w_groups w) 0) as [gi|] eqn:Ef.
  2:{ simpl. unfold opn. simpl. by eexists. }
  destruct (find_some _ _ _ _ Ef) as (g & Hg & _ & Eq). rewrite Nat.sub_0_r in Hg.
  eapply opn_skip; [apply rt_ret|]. eapply opn_skip; [apply rt_acq, (proj2 I6)|].
  assert (keeps hd6 ((LGroup gi, false) :: (LStore b, mb) :: (LStore a, ma) :: h)) as I7.
  { destruct I6 as [X Y]. split; [intros t m; rewrite <- X; done|]. intros j. specialize (Y j).
    unfold conflict in *. cbn [existsb] in *. by rewrite Y, andb_false_r. }
  match goal with |- opn (bind (unwrap (Some gi)) ?K) ?P ?H ?D w ?Q => change (opn (K gi) P H D w Q) end. cbn beta. rewrite Hg.
  match goal with |- opn (bind (unwrap (Some g)) ?K) ?P ?H ?D w ?Q => change (opn (K g) P H D w Q) end. cbn beta.
  destruct k.
  - eapply opn_skip.
    { pose proof (rt_ask (fun w => match w_groups w !! gi with Some g => Ret (g_len g) | None => Panic end)
        ((LGroup gi, false) :: (LStore b, mb) :: (LStore a, ma) :: h) w) as X. cbn beta in X. rewrite Hg in X. exact X. }
    apply opn_ret; [done|]. done.
  - eapply opn_skip.
    { pose proof (rt_ask (fun w => match w_groups w !! gi with Some g => Ret (g_len g) | None => Panic end)
        ((LGroup gi, false) :: (LStore b, mb) :: (LStore a, ma) :: h) w) as X. cbn beta in X. rewrite Hg in X. exact X. }
    apply opn_ret; [done|]. done.
  - destruct g as [d|d|d]; try done. by apply opn_ret.
Qed.

Lemma opened_app h h1 J x h2 : h1 ≡ₚ h -> opened h1 J x h2 -> x.1 = J /\ h2 ≡ₚ x.2 ++ h.
Proof. intros P [E H]. split; [done|]. by rewrite H, P. Qed.

Lemma opn_query q h hd w : keeps hd h -> opn (query_open w q) (p_open q) h hd w (opened h).
Proof.
  revert h hd. induction q as [m t|a IHa b IHb|a IHa b IHb c IHc|a IHa b IHb c IHc d IHd|a IHa b IHb c IHc d IHd e IHe|a IHa b IHb|a IHa b IHb|k ma mb a b];
    intros h hd I; cbn [query_open p_open].
  - unfold p_ref. eapply opn_skip; [apply rt_look|]. eapply opn_bind; [by apply opn_assert|]. intros [] [] ? hd1 I1 ->.
    eapply opn_bind; [by apply opn_lock|]. intros [] [] ? hd2 I2 ->.
    eapply opn_bind; [by apply opn_downcast|]. intros [] [] ? hd3 I3 ->. by apply opn_ret.
  - eapply opn_bind; [by apply IHa|]. intros Ja x h1 hd1 I1 [<- P1].
    eapply opn_bind; [by apply IHb|]. intros Jb y h2 hd2 I2 [<- P2].
    apply opn_ret; [done|]. split; [done|]. cbn [fst snd]. by rewrite P2, P1, app_assoc.
  - eapply opn_bind; [by apply IHa|]. intros Ja x h1 hd1 I1 [<- P1].
    eapply opn_bind; [by apply IHb|]. intros Jb y h2 hd2 I2 [<- P2].
    eapply opn_bind; [by apply IHc|]. intros Jc z h3 hd3 I3 [<- P3].
    apply opn_ret; [done|]. split; [done|]. cbn [fst snd]. by rewrite P3, P2, P1, !app_assoc.
  - eapply opn_bind; [by apply IHa|]. intros Ja x h1 hd1 I1 [<- P1].
    eapply opn_bind; [by apply IHb|]. intros Jb y h2 hd2 I2 [<- P2].
    eapply opn_bind; [by apply IHc|]. intros Jc z h3 hd3 I3 [<- P3].
    eapply opn_bind; [by apply IHd|]. intros Jd u h4 hd4 I4 [<- P4].
    apply opn_ret; [done|]. split; [done|]. cbn [fst snd]. by rewrite P4, P3, P2, P1, !app_assoc.
  - eapply opn_bind; [by apply IHa|]. intros Ja x h1 hd1 I1 [<- P1].
    eapply opn_bind; [by apply IHb|]. intros Jb y h2 hd2 I2 [<- P2].
    eapply opn_bind; [by apply IHc|]. intros Jc z h3 hd3 I3 [<- P3].
    eapply opn_bind; [by apply IHd|]. intros Jd u h4 hd4 I4 [<- P4].
    eapply opn_bind; [by apply IHe|]. intros Je v h5 hd5 I5 [<- P5].
    apply opn_ret; [done|]. split; [done|]. cbn [fst snd]. by rewrite P5, P4, P3, P2, P1, !app_assoc.
  - eapply opn_bind; [by apply IHa|]. intros Ja x h1 hd1 I1 [<- P1].
    eapply opn_bind; [by apply IHb|]. intros Jb y h2 hd2 I2 [<- P2].
    apply opn_ret; [done|]. split; [done|]. cbn [fst snd]. by rewrite P2, P1, app_assoc.
  - eapply opn_bind; [by apply IHa|]. intros Ja x h1 hd1 I1 [<- P1].
    eapply opn_bind; [by apply IHb|]. intros Jb y h2 hd2 I2 [<- P2].
    apply opn_ret; [done|]. split; [done|]. cbn [fst snd]. by rewrite P2, P1, app_assoc.
  - by apply opn_group.
Qed.

Lemma keeps_none : keeps [] [].
Proof. done. Qed.
Lemma rt_rels {A} hs (a : A) h h0 w : h ≡ₚ hs ++ h0 -> runs_to (rels hs (PRet a)) h w (Ret a) w h0.
Proof.
  revert h. induction hs as [|[l x] hs IH]; intros h P; cbn [rels].
  - by exists h.
  - destruct (IH (drop_hold l x h)) as (h1 & E & P1).
    { rewrite (drop_perm _ _ l x P). cbn [app drop_hold]. by rewrite decide_True. }
    exists h1. done.
Qed.

Lemma ra_query q w : runs_as (p_call (Query q)) [] (step (Query q)) w [].
Proof.
  cbn [p_call step]. unfold runs_as. pose proof (opn_query q [] [] w keeps_none) as O. unfold opn in O.
  unfold bind at 1 2. unfold get. unfold fmapM, bind, lift, run_query.
  destruct (query_open w q []) as [[J| | |] hd]; cbn [fst snd].
  2:{ by eapply (rt_fail _ _ _ _ Panic). }
  2:{ by eapply (rt_fail _ _ _ _ UB). }
  2:{ by eapply (rt_fail _ _ _ _ Block). }
  destruct O as (x & h' & R & _ & <- & P). rewrite app_nil_r in P.
  pose proof (rt_ask (fun w => collect (S (qi_fuel x.1 w (qi_init x.1))) w x.1 (qi_init x.1)) h' w) as X. cbn beta in X.
  destruct (collect (S (qi_fuel x.1 w (qi_init x.1))) w x.1 (qi_init x.1)) as [l| | |]; cbn [fst snd ret].
  - eapply rt_bind; [exact R|]. eapply rt_bind; [exact X|]. apply rt_rels. by rewrite app_nil_r.
  - eapply rt_bind; [exact R|]. by eapply (rt_fail _ _ _ _ Panic).
  - eapply rt_bind; [exact R|]. by eapply (rt_fail _ _ _ _ UB).
  - eapply rt_bind; [exact R|]. by eapply (rt_fail _ _ _ _ Block).
Qed.
Lemma ra_query_mut q f w : runs_as (p_call (QueryMut q f)) [] (step (QueryMut q f)) w [].
Proof.
  cbn [p_call step]. unfold runs_as. pose proof (opn_query q [] [] w keeps_none) as O. unfold opn in O.
  unfold fmapM, bind, run_query_mut.
  destruct (query_open w q []) as [[J| | |] hd]; cbn [fst snd].
  2:{ by eapply (rt_fail _ _ _ _ Panic). }
  2:{ by eapply (rt_fail _ _ _ _ UB). }
  2:{ by eapply (rt_fail _ _ _ _ Block). }
  destruct O as (x & h' & R & _ & <- & P). rewrite app_nil_r in P.
  pose proof (rt_act BWrite (fun w => drive (S (qi_fuel x.1 w (qi_init x.1))) x.1 f (qi_init x.1) w) h' w) as X. cbn beta in X.
  destruct (drive (S (qi_fuel x.1 w (qi_init x.1))) x.1 f (qi_init x.1) w) as [[l| | |] w']; cbn [fst snd ret] in *.
  - eapply rt_bind; [exact R|]. eapply rt_bind; [exact X|]. apply rt_rels. by rewrite app_nil_r.
  - eapply rt_bind; [exact R|]. by eapply (rt_fail _ _ _ _ Panic).
  - eapply rt_bind; [exact R|]. by eapply (rt_fail _ _ _ _ UB).
  - eapply rt_bind; [exact R|]. by eapply (rt_fail _ _ _ _ Block).
Qed.
Lemma ra_guard l x lab there o w : runs_as (via_guard l x lab there o) [] (step o) w [].
Proof.
  unfold via_guard. eapply ra_skip; [apply rt_look|]. destruct (there w).
  - eapply ra_skip; [by apply rt_acq|]. eapply ra_then; [apply ra_act|]. intros r w1 E.
    eapply rt_bind; [apply rt_rel|]. apply rt_ret.
  - apply ra_act.
Qed.

Lemma none_store : no_store []. Proof. by intros t x ?%not_elem_of_nil. Qed.
Lemma none_group : no_group []. Proof. by intros t x ?%not_elem_of_nil. Qed.
Lemma man_store : no_store [(LMan, false)]. Proof. intros t x [?|?]%elem_of_cons; [done|by apply not_elem_of_nil in H]. Qed.
Lemma man_group : no_group [(LMan, false)]. Proof. intros t x [?|?]%elem_of_cons; [done|by apply not_elem_of_nil in H]. Qed.

(** calls that can be made on a shared world; the enumeration of a map has no
    duplicates *)
Definition callable (o : op V) : Prop :=
  match o with
  | Register _ | MakeGroup _ _ _ | RegisterRes _ _ | BatchAttach _ _ _ _ => False
  | RemoveEntity _ ord => NoDup ord
  | _ => True
  end.
Lemma ra_call o w : callable o -> runs_as (p_call o) [] (step o) w [].
Proof.
  intros C. destruct o; try done; try apply ra_guard; try apply ra_query; try apply ra_query_mut; cbn [p_call step].
  - (* HasRegistered *) apply ra_act.
  - (* CreateEntity *) unfold p_new_entity, create_entity.
    assert (runs_as (acq LMan true ;;; (do! id <- act BNew (on_em em_allocate) in rel LMan true ;;; (do! b <- p_entity id in passert b ;;; PRet id)))
      [] create_entity w [(LMan, false)]) as X.
    { eapply ra_skip; [by apply rt_acq|]. eapply ra_bind; [apply ra_act|]. intros id w1 E. apply ra_get.
      eapply ra_skip; [apply rt_rel|].
      eapply (ra_ext _ _ (let! b := lift (exist id w1) in assert b >>! ret id)).
      { unfold bind, lift. by destruct (exist id w1) as [[]| | |]. }
      eapply ra_entity; [done|]. apply ra_ret. }
    eapply ra_fmap; [exact X|]. intros id w1 E. eapply rt_bind; [apply rt_rel|apply rt_ret].
  - (* CreateEntities *) eapply ra_fmap.
    { unfold p_new_entities. eapply ra_skip; [by apply rt_acq|]. eapply ra_then; [apply ra_act|]. intros r w1 E.
      eapply rt_bind; [apply rt_rel|]. eapply rt_bind; [by apply rt_acq|apply rt_ret]. }
    intros r w1 E. eapply rt_bind; [apply rt_rel|apply rt_ret].
  - (* RemoveEntity *) eapply ra_fmap; [apply ra_remove; [done| |apply none_store|apply none_group]|].
    { by intros x ?%not_elem_of_nil. }
    intros [] w1 E. apply rt_ret.
  - (* Exist *) apply ra_get. eapply ra_fmap; [by apply ra_exist|]. intros b w1 E. apply rt_ret.
  - (* Attach *)
    assert (runs_as (do! b <- p_entity id in passert b ;;; p_handle_attach t id v) [] (attach_component t id v) w [(LMan, false)]) as X.
    { apply ra_get. eapply ra_entity; [done|]. apply ra_handle_attach; [apply man_store|apply man_group]. }
    assert (forall (p : prog bool) (f : bool -> prog unit) (g : prog unit) (r : prog (out V)),
      alone (pbind p (fun b => f b ;;; g ;;; r)) [] w = alone (pbind (pbind p (fun b => f b ;;; g)) (fun _ => r)) [] w) as A.
    { intros p f g r. rewrite !alone_bind. destruct (alone p [] w) as [[[bb| | |] w1] h1]; try done.
      rewrite !alone_bind. destruct (alone (f bb) h1 w1) as [[[u| | |] w2] h2]; try done. by rewrite alone_bind. }
    assert (runs_as (pbind (do! b <- p_entity id in passert b ;;; p_handle_attach t id v) (fun _ => rel LMan false ;;; PRet (@OUnit V))) []
      (fmapM (fun _ => @OUnit V) (attach_component t id v)) w []) as Y.
    { eapply ra_fmap; [exact X|]. intros [] w1 E. eapply rt_bind; [apply rt_rel|apply rt_ret]. }
    unfold runs_as, runs_to in Y |- *. rewrite A. exact Y.
  - (* Detach *)
    assert (runs_as (do! b <- p_entity id in passert b ;;; p_handle_detach t id) [] (detach_component t id) w [(LMan, false)]) as X.
    { apply ra_get. eapply ra_entity; [done|]. apply ra_handle_detach; [apply man_store|apply man_group]. }
    assert (forall (p : prog bool) (f : bool -> prog unit) (g : prog (option V)) (r : option V -> prog (out V)),
      alone (pbind p (fun b => f b ;;; (do! x <- g in r x))) [] w = alone (pbind (pbind p (fun b => f b ;;; g)) r) [] w) as A.
    { intros p f g r. rewrite !alone_bind. destruct (alone p [] w) as [[[bb| | |] w1] h1]; try done.
      rewrite !alone_bind. destruct (alone (f bb) h1 w1) as [[[u| | |] w2] h2]; try done. by rewrite alone_bind. }
    assert (runs_as (pbind (do! b <- p_entity id in passert b ;;; p_handle_detach t id) (fun r => rel LMan false ;;; PRet (OVal r))) []
      (fmapM OVal (detach_component t id)) w []) as Y.
    { eapply ra_fmap; [exact X|]. intros r w1 E. eapply rt_bind; [apply rt_rel|apply rt_ret]. }
    unfold runs_as, runs_to in Y |- *. rewrite A. exact Y.
Qed.
End seq2.

(** C49: a call made by a thread while no other thread has a guard, and none
    moves during the call, is the call of ModelStep.v: what is proved of
    histories of calls holds of such calls.  (Statements in terms of runs of
    threads, ModelConc.v.) *)
From stdpp Require Import prelude list gmap.
From Verif Require Import Base Api ModelSparse ModelEntity ModelGroup ModelWorld ModelQuery ModelStep ModelConc
  SpecConc ProofSeq ProofSeq2.

(** ** Runs of one thread *)
Section machine.
Context {V : Type}.
Implicit Types (w : world V) (h : list (lock * bool)) (ths : list (thread V)) (c : conf V).

(** does not drop the guards [hb] *)
Fixpoint spares {A} (hb : list (lock * bool)) (p : prog V A) : Prop :=
  match p with
  | PAcq _ _ k => spares hb k
  | PRel l x k => (l, x) ∉ hb /\ spares hb k
  | PAct _ _ k => forall b, spares hb (k b)
  | _ => True
  end.
Lemma spares_nil {A} (p : prog V A) : spares [] p.
Proof. induction p; simpl; auto. split; [apply not_elem_of_nil|done]. Qed.
Lemma spares_bind {A B} hb (p : prog V A) (k : A -> prog V B) : spares hb p -> (forall a, spares hb (k a)) -> spares hb (pbind p k).
Proof. intros H K. induction p; simpl in *; auto. by split; [apply H|apply IHp, H]. Qed.

Lemma run_app s1 s2 c : run (s1 ++ s2) c = match run s1 c with Some c' => run s2 c' | None => None end.
Proof. revert c. induction s1 as [|i s1 IH]; intros c; simpl; [done|]. destruct (cstep i c); [apply IH|done]. Qed.
Lemma run_S i n c c1 c2 : cstep i c = Some c1 -> run (replicate n i) c1 = Some c2 -> run (replicate (S n) i) c = Some c2.
Proof. intros E R. simpl. by rewrite E. Qed.

Section one.
Context (i : nat) (ths : list (thread V)) (Hi : i < length ths) (Ho : holds_of_others i ths = []).

Lemma others_insert th : holds_of_others i (<[i := th]> ths) = [].
Proof.
  rewrite <- Ho. unfold holds_of_others. f_equal. f_equal. apply list_eq. intros j.
  destruct (decide (j < i)) as [H|H].
  - rewrite !lookup_delete_lt by done. apply list_lookup_insert_ne. lia.
  - rewrite !lookup_delete_ge by lia. apply list_lookup_insert_ne. lia.
Qed.
Lemma cstep_at th w :
  cstep i (Cf w (<[i := th]> ths)) =
  match tstep [] th w with Some (th', w') => Some (Cf w' (<[i := th']> ths)) | None => None end.
Proof.
  unfold cstep. cbn [cf_threads cf_world]. rewrite list_lookup_insert by done. rewrite others_insert.
  destruct (tstep [] th w) as [[th' w']|]; [|done]. by rewrite list_insert_insert.
Qed.

Lemma drop_app l x h h' : (l, x) ∉ h' -> drop_hold l x (h ++ h') = drop_hold l x h ++ h'.
Proof.
  intros H. induction h as [|y h IH]; simpl.
  - induction h' as [|y h' IH]; [done|]. simpl. apply not_elem_of_cons in H as [H1 H2]. rewrite decide_False by done. by rewrite IH.
  - case_decide; [done|]. by rewrite IH.
Qed.
Lemma run_rels hs h w (p : prog V unit) :
  run (replicate (length hs) i) (Cf w (<[i := Th (hs ++ h) (rels hs p)]> ths)) = Some (Cf w (<[i := Th h p]> ths)).
Proof.
  induction hs as [|[l x] hs IH]; [done|]. cbn [length]. eapply run_S; [|exact IH].
  rewrite cstep_at. unfold tstep. cbn [th_prog th_holds rels app drop_hold]. by rewrite decide_True.
Qed.

(** a thread that cannot move and never will: it waits for a lock it has
    itself, or hangs *)
Definition stuck_self (th : thread V) : Prop :=
  th_prog th = PHang \/ exists l x k, th_prog th = PAcq l x k /\ conflict (th_holds th) l x = true.

Lemma run_catch {A} (p : prog V A) (k : outcome A -> list (lock * bool) -> prog V unit) mine hb w r w' h' :
  spares hb p -> alone p (mine ++ hb) w = (r, w', h') ->
  exists n th', run (replicate n i) (Cf w (<[i := Th (mine ++ hb) (catch mine p k)]> ths)) = Some (Cf w' (<[i := th']> ths)) /\
    match r with
    | Ret a => exists mine', h' = mine' ++ hb /\ th' = Th h' (k (Ret a) mine')
    | Panic => th' = Th hb (k Panic [])
    | UB => th_prog th' = PUB
    | Block => stuck_self th'
    end.
Proof.
  revert mine w. induction p as [a| | | |l x p IH|l x p IH|C lab f kk IH]; intros mine w HT E; cbn [alone catch] in *.
  - injection E as <- <- <-. exists 0, (Th (mine ++ hb) (k (Ret a) mine)). split; [done|]. by exists mine.
  - injection E as <- <- <-. exists (length mine), (Th hb (k Panic [])). split; [|done]. apply run_rels.
  - injection E as <- <- <-. by exists 0, (Th (mine ++ hb) PUB).
  - injection E as <- <- <-. exists 0, (Th (mine ++ hb) PHang). split; [done|]. by left.
  - destruct (conflict (mine ++ hb) l x) eqn:Ec.
    + injection E as <- <- <-. exists 0. eexists. split; [done|]. right. by eexists _, _, _.
    + destruct (IH ((l, x) :: mine) w HT E) as (n & th' & R & X).
      exists (S n), th'. split; [|done]. eapply run_S; [|exact R]. rewrite cstep_at. unfold tstep. cbn [th_prog th_holds].
      by rewrite app_nil_r, Ec.
  - destruct HT as [Hl HT]. pose proof (drop_app l x mine hb Hl) as D.
    rewrite D in E. destruct (IH (drop_hold l x mine) w HT E) as (n & th' & R & X).
    exists (S n), th'. split; [|done]. eapply run_S; [|exact R]. rewrite cstep_at. unfold tstep. cbn [th_prog th_holds].
    by rewrite D.
  - destruct (f w) as [[b| | |] w1] eqn:Ef.
    + destruct (IH b mine w1 (HT b) E) as (n & th' & R & X).
      exists (S n), th'. split; [|done]. eapply run_S; [|exact R]. rewrite cstep_at. unfold tstep. cbn [th_prog th_holds].
      by rewrite Ef.
    + injection E as <- <- <-. exists (S (length mine)), (Th hb (k Panic [])). split; [|done].
      eapply run_S; [|apply run_rels]. rewrite cstep_at. unfold tstep. cbn [th_prog th_holds]. by rewrite Ef.
    + injection E as <- <- <-. exists 1. eexists. split; [|].
      { eapply run_S; [|done]. rewrite cstep_at. unfold tstep. cbn [th_prog th_holds]. by rewrite Ef. }
      done.
    + injection E as <- <- <-. exists 1. eexists. split; [|].
      { eapply run_S; [|done]. rewrite cstep_at. unfold tstep. cbn [th_prog th_holds]. by rewrite Ef. }
      by left.
Qed.
End one.
End machine.

(** ** The property *)
Section c49.
Context {V : Type}.
Implicit Types (w : world V) (c : conf V).

(** Thread [i] keeps the objects [e] and goes on with the client [k]; it has no
    guards but those of its objects, the other threads have none. *)
Definition quiet c (i : nat) (e : list (obj V)) (k : client V) : Prop :=
  cf_threads c !! i = Some (Th (all_holds e) (compile e k)) /\ forall j g, j <> i -> ~ guard_of c j g.
(** [c] with thread [i] keeping [e] and going on with [k] on the world [w]. *)
Definition goes_on c (i : nat) w (e : list (obj V)) (k : client V) : conf V :=
  Cf w (<[i := Th (all_holds e) (compile e k)]> (cf_threads c)).

Lemma quiet_others c i e k : quiet c i e k -> holds_of_others i (cf_threads c) = [].
Proof.
  intros [_ H]. unfold holds_of_others. apply elem_of_nil_inv. intros g Hg.
  apply elem_of_list_In, in_concat in Hg as (hs & H1 & H2).
  apply elem_of_list_In in H1, H2. apply elem_of_list_fmap in H1 as (th & -> & H1).
  apply elem_of_list_lookup in H1 as (j & Hj).
  destruct (decide (j < i)) as [Hl|Hl].
  - rewrite lookup_delete_lt in Hj by done. apply (H j g); [lia|]. by exists th.
  - rewrite lookup_delete_ge in Hj by lia. apply (H (S j) g); [lia|]. by exists th.
Qed.
Lemma quiet_on c i w e e' k k' : quiet c i e k -> quiet (goes_on c i w e' k') i e' k'.
Proof.
  intros [Ht Q]. split.
  - unfold goes_on. cbn [cf_threads]. rewrite list_lookup_insert; [done|]. by eapply lookup_lt_Some.
  - intros j g Hj (th & Hth & Hg). cbn [goes_on cf_threads] in Hth. rewrite list_lookup_insert_ne in Hth by done.
    apply (Q j g Hj). by exists th.
Qed.
Lemma run_quiet {A} c i e (cl : client V) (p : prog V A) (k : outcome A -> prog V unit) (m : M (world V) A) hn :
  quiet c i e cl -> compile e cl = catch [] p (fun r _ => k r) -> spares (all_holds e) p ->
  runs_as p (all_holds e) m (cf_world c) hn ->
  exists n th', run (replicate n i) c = Some (Cf (m (cf_world c)).2 (<[i := th']> (cf_threads c))) /\
    match (m (cf_world c)).1 with
    | Ret a => exists h', h' ≡ₚ hn /\ th' = Th h' (k (Ret a))
    | Panic => th' = Th (all_holds e) (k Panic)
    | UB => th_prog th' = PUB
    | Block => stuck_self th'
    end.
Proof.
  intros Q Ec Sp (h1 & Ea & P). pose proof (quiet_others _ _ _ _ Q) as Ho. destruct Q as [Ht _].
  destruct (run_catch i (cf_threads c) ltac:(by eapply lookup_lt_Some) Ho p (fun r _ => k r) [] (all_holds e) (cf_world c) _ _ h1 Sp Ea)
    as (n & th' & R & X).
  exists n, th'. split.
  - rewrite <- R. destruct c as [w ths]. cbn [cf_world cf_threads] in *. do 2 f_equal. symmetry. apply list_insert_id.
    rewrite Ht. cbn [app]. by rewrite Ec.
  - destruct (m (cf_world c)) as [[a| | |] w']; cbn [fst snd] in *; try done.
    destruct X as (mine' & -> & ->). by eexists.
Qed.

(** A call made with no object kept: if the call of ModelStep.v returns or
    panics, the thread, running alone, gets that answer and leaves that world,
    with no guard left; *)
Theorem C49_call c i o k r w' : quiet c i [] (Call o k) -> callable o -> step o (cf_world c) = (r, w') ->
  match r with Ret _ | Panic => True | _ => False end ->
  exists n, run (replicate n i) c = Some (goes_on c i w' [] (k r)).
Proof.
  intros Q C E Hr.
  destruct (run_quiet c i [] _ (p_call o) (fun r => compile [] (k r)) (step o) [] Q eq_refl (spares_nil _) (ra_call o _ C)) as (n & th' & R & X).
  exists n. rewrite R. rewrite E in *. cbn [fst snd] in *. unfold goes_on. destruct r; try done.
  - destruct X as (h' & P & ->). apply Permutation_nil_r in P. by rewrite P.
  - by rewrite X.
Qed.
(** if it blocks, the thread comes to a point where it waits for itself and can
    never move again, whatever happens; if it is undefined behaviour, the
    thread runs into it. *)
Theorem C49_call_blocks c i o k w' : quiet c i [] (Call o k) -> callable o -> step o (cf_world c) = (Block, w') ->
  exists n th', run (replicate n i) c = Some (Cf w' (<[i := th']> (cf_threads c))) /\
    forall c', cf_threads c' !! i = Some th' -> cstep i c' = None /\ ~ finished c' i.
Proof.
  intros Q C E.
  destruct (run_quiet c i [] _ (p_call o) (fun r => compile [] (k r)) (step o) [] Q eq_refl (spares_nil _) (ra_call o _ C)) as (n & th' & R & X).
  exists n, th'. rewrite E in *. cbn [fst snd] in *. split; [done|].
  intros c' Hc'. unfold cstep. rewrite Hc'. unfold tstep. destruct X as [X|(l & x & kk & X & Cf)]; rewrite X.
  - split; [done|]. intros (th & Hth & Hp & _). congruence.
  - assert (conflict (th_holds th' ++ holds_of_others i (cf_threads c')) l x = true) as ->.
    { unfold conflict in *. by rewrite existsb_app, Cf. }
    split; [done|]. intros (th & Hth & Hp & _). congruence.
Qed.
Theorem C49_call_crashes c i o k w' : quiet c i [] (Call o k) -> callable o -> step o (cf_world c) = (UB, w') ->
  exists n c', run (replicate n i) c = Some c' /\ cf_world c' = w' /\ crashed c' i.
Proof.
  intros Q C E.
  destruct (run_quiet c i [] _ (p_call o) (fun r => compile [] (k r)) (step o) [] Q eq_refl (spares_nil _) (ra_call o _ C)) as (n & th' & R & X).
  rewrite E in *. cbn [fst snd] in *. exists n, (Cf w' (<[i := th']> (cf_threads c))). split; [done|]. split; [done|].
  destruct Q as [Ht _]. exists th'. cbn [cf_threads]. rewrite list_lookup_insert; [done|]. by eapply lookup_lt_Some.
Qed.

(** Hence a program with one thread does exactly what the history of its calls
    does.  [asks ops k]: make the calls [ops] one after the other, then go on
    with [k] and the answers. *)
Fixpoint asks (ops : list (op V)) (k : list (outcome (out V)) -> client V) : client V :=
  match ops with
  | [] => k []
  | o :: ops' => Call o (fun r => asks ops' (fun rs => k (r :: rs)))
  end.
Theorem C49_history c i ops k : quiet c i [] (asks ops k) -> Forall callable ops ->
  Forall (fun ev => match ev.2 with Ret _ | Panic => True | _ => False end) (trace ops (cf_world c)) ->
  exists n, run (replicate n i) c = Some (goes_on c i (exec ops (cf_world c)) [] (k (trace ops (cf_world c)).*2)).
Proof.
  revert c k. induction ops as [|o ops IH]; intros c k Q C T.
  - exists 0. simpl. f_equal. destruct Q as [Ht _]. unfold goes_on. destruct c as [w ths]. cbn [cf_threads cf_world asks] in *.
    by rewrite list_insert_id.
  - apply Forall_cons in C as [Co C]. cbn [trace] in T. apply Forall_cons in T as [To T]. cbn [fst snd] in To.
    destruct (step o (cf_world c)) as [r w'] eqn:E. cbn [fst snd] in *. cbn [asks] in Q.
    destruct (C49_call c i o _ r w' Q Co E To) as [n R].
    destruct (IH (goes_on c i w' [] (asks ops (fun rs => k (r :: rs)))) (fun rs => k (r :: rs)) ltac:(by eapply quiet_on) C T) as [n' R'].
    exists (n + n'). rewrite replicate_add, run_app, R, R'. f_equal. unfold goes_on. cbn [cf_threads cf_world trace exec].
    rewrite E. cbn [fst snd fmap list_fmap]. by rewrite list_insert_insert.
Qed.

(** The same of calls made through handles.  [create_entity()] keeping the
    handle, [entity(id)], [create_entities(n)]: *)
Theorem C49_new_entity c i k r w' : quiet c i [] (NewEntity k) -> step CreateEntity (cf_world c) = (r, w') ->
  match r with
  | Ret (OId id) => exists n, run (replicate n i) c = Some (goes_on c i w' [JEntity id] (k (Ret id)))
  | Panic => exists n, run (replicate n i) c = Some (goes_on c i w' [] (k Panic))
  | _ => False
  end.
Proof.
  intros Q E.
  assert (runs_as p_new_entity [] create_entity (cf_world c) [(LMan, false)]) as RA.
  { unfold p_new_entity, create_entity. eapply ra_skip; [by apply rt_acq|]. eapply ra_bind; [apply ra_act|]. intros id w1 E1. apply ra_get.
    eapply ra_skip; [apply rt_rel|].
    eapply (ra_ext _ _ (let! b := lift (exist id w1) in assert b >>! ret id)).
    { unfold bind, lift. by destruct (exist id w1) as [[]| | |]. }
    eapply ra_entity; [done|]. apply ra_ret. }
  destruct (run_quiet c i [] _ p_new_entity (fun r => compile (match r with Ret id => [JEntity id] | _ => [] end) (k r)) create_entity _
    Q eq_refl (spares_nil _) RA) as (n & th' & R & X).
  cbn [step] in E. unfold fmapM, bind in E. destruct (create_entity (cf_world c)) as [[id| | |] w1] eqn:Ec; cbn [fst snd] in *.
  - injection E as <- <-. exists n. rewrite R. destruct X as (h' & P & ->). symmetry in P. apply Permutation_singleton_l in P as <-. done.
  - injection E as <- <-. exists n. rewrite R, X. done.
  - exfalso. unfold create_entity, bind, get, lift, exist, em_has in Ec. destruct (on_em em_allocate (cf_world c)) as [[id| | |] w2] eqn:Eo; try done.
    + destruct (flags (w_em w2) !! id) as [[]|]; try done.
    + clear -Eo. unfold on_em, em_allocate in Eo. unfold bind, get, unwrap, vec_set, put, ret, panic in Eo.
      repeat (case_match; simplify_eq; try done).
  - exfalso. unfold create_entity, bind, get, lift, exist, em_has in Ec. destruct (on_em em_allocate (cf_world c)) as [[id| | |] w2] eqn:Eo; try done.
    + destruct (flags (w_em w2) !! id) as [[]|]; try done.
    + clear -Eo. unfold on_em, em_allocate in Eo. unfold bind, get, unwrap, vec_set, put, ret, panic in Eo.
      repeat (case_match; simplify_eq; try done).
Qed.

Lemma sp_groups t j n : spares [(LMan, false)] (@p_groups V t j n).
Proof.
  revert j. induction n as [|n IH]; intros j; cbn [p_groups]; [done|].
  apply spares_bind; [done|]. intros _. apply spares_bind; [done|]. intros h. apply spares_bind.
  { cbn. split; [by intros [?|?%not_elem_of_nil]%elem_of_cons|done]. }
  intros _. destruct (match h with Some (_, a, b) => _ | None => false end); [|apply IH].
  apply spares_bind; [done|]. intros _. apply spares_bind; [apply IH|]. done.
Qed.
Lemma sp_group_at j lab ff fp fn : spares [(LMan, false)] (@p_group_at V j lab ff fp fn).
Proof.
  unfold p_group_at. apply spares_bind; [done|]. intros h. apply spares_bind; [by destruct h|]. intros [[k a] b].
  assert (forall t x, spares [(LMan, false)] (@p_storage V t x)) as St.
  { intros t x. unfold p_storage. apply spares_bind; [done|]. intros b0. apply spares_bind; [by destruct b0|]. done. }
  apply spares_bind; [apply St|]. intros _. apply spares_bind; [apply St|]. intros _. apply spares_bind; [done|]. intros _.
  assert (forall t x, spares [(LMan, false)] (@rel V (LStore t) x)) as Rl.
  { intros t x. cbn. split; [by intros [?|?%not_elem_of_nil]%elem_of_cons|done]. }
  apply spares_bind; [apply Rl|]. intros _. apply Rl.
Qed.
Lemma sp_each gs lab ff fp fn : spares [(LMan, false)] (@p_each_group V gs lab ff fp fn).
Proof.
  unfold p_each_group. induction gs as [|j gs IH]; cbn [pfor]; [done|]. apply spares_bind; [|intros _; apply IH].
  apply spares_bind; [apply sp_group_at|]. intros _. cbn. split; [by intros [?|?%not_elem_of_nil]%elem_of_cons|done].
Qed.
Lemma sp_attach t id v : spares [(LMan, false)] (@p_handle_attach V t id v).
Proof.
  unfold p_handle_attach. apply spares_bind; [done|]. intros b. apply spares_bind; [by destruct b|]. intros _.
  apply spares_bind; [done|]. intros _. apply spares_bind; [done|]. intros _.
  apply spares_bind. { cbn. split; [by intros [?|?%not_elem_of_nil]%elem_of_cons|done]. }
  intros _. apply spares_bind; [done|]. intros n. apply spares_bind; [apply sp_groups|]. intros gs. apply sp_each.
Qed.
Lemma sp_detach t id : spares [(LMan, false)] (@p_handle_detach V t id).
Proof.
  unfold p_handle_detach. apply spares_bind; [done|]. intros b. apply spares_bind; [by destruct b|]. intros _.
  apply spares_bind; [done|]. intros n. apply spares_bind; [apply sp_groups|]. intros gs. apply spares_bind; [apply sp_each|]. intros _.
  apply spares_bind; [done|]. intros _. apply spares_bind; [done|]. intros r.
  apply spares_bind. { cbn. split; [by intros [?|?%not_elem_of_nil]%elem_of_cons|done]. } done.
Qed.
Lemma sp_batch lo hi t vs : spares [(LMan, false)] (@p_batch V lo hi t vs).
Proof.
  unfold p_batch. apply spares_bind; [by destruct (_ =? _)|]. intros _.
  unfold p_storage. apply spares_bind. { apply spares_bind; [done|]. intros b. apply spares_bind; [by destruct b|]. done. }
  intros _. apply spares_bind; [done|]. intros _. cbn. split; [by intros [?|?%not_elem_of_nil]%elem_of_cons|done].
Qed.

Theorem C49_entity c i id k r w' : quiet c i [] (GetEntity id k) -> step (Exist id) (cf_world c) = (r, w') ->
  match r with
  | Ret (OBool b) => exists n, run (replicate n i) c = Some (goes_on c i w' (if b then [JEntity id] else []) (k (Ret b)))
  | Panic => exists n, run (replicate n i) c = Some (goes_on c i w' [] (k Panic))
  | _ => False
  end.
Proof.
  intros Q E. set (w := cf_world c) in *.
  assert (runs_as (p_entity id) [] (lift (exist id w)) w (match exist id w with Ret true => [(LMan, false)] | _ => [] end)) as RA.
  { unfold p_entity. eapply ra_skip; [by apply rt_acq|]. eapply ra_then; [apply ra_ask|]. intros b w1 Eb. unfold lift in Eb.
    injection Eb as -> ->. destruct b; [apply rt_ret|]. eapply rt_bind; [apply rt_rel|apply rt_ret]. }
  destruct (run_quiet c i [] _ (p_entity id) (fun r => compile (match r with Ret true => [JEntity id] | _ => [] end) (k r)) _ _
    Q eq_refl (spares_nil _) RA) as (n & th' & R & X).
  fold w in R, X. unfold lift in R, X. cbn [fst snd] in R, X. cbn [step] in E. unfold bind, get, fmapM, bind, lift, ret in E.
  assert (exist id w <> UB /\ exist id w <> Block) as [H1 H2].
  { unfold exist, em_has. by destruct (flags (w_em w) !! id) as [[]|]. }
  destruct (exist id w) as [b| | |]; try done; injection E as <- <-; exists n; rewrite R.
  - destruct X as (h' & P & ->). destruct b.
    + symmetry in P. apply Permutation_singleton_l in P as <-. done.
    + apply Permutation_nil_r in P as ->. done.
  - by rewrite X.
Qed.
Theorem C49_new_entities c i m k r w' : quiet c i [] (NewEntities m k) -> step (CreateEntities m) (cf_world c) = (r, w') ->
  match r with
  | Ret (ORange lo hi) => exists n, run (replicate n i) c = Some (goes_on c i w' [JEntities lo hi] (k (Ret (lo, hi))))
  | _ => False
  end.
Proof.
  intros Q E. set (w := cf_world c) in *.
  assert (runs_as (p_new_entities m) [] (create_entities m) w [(LMan, false)]) as RA.
  { unfold p_new_entities. eapply ra_skip; [by apply rt_acq|]. eapply ra_then; [apply ra_act|]. intros r0 w0 E0.
    eapply rt_bind; [apply rt_rel|]. eapply rt_bind; [by apply rt_acq|apply rt_ret]. }
  destruct (run_quiet c i [] _ (p_new_entities m) (fun r => compile (match r with Ret (lo, hi) => [JEntities lo hi] | _ => [] end) (k r)) _ _
    Q eq_refl (spares_nil _) RA) as (n & th' & R & X).
  fold w in R, X. cbn [step] in E. unfold fmapM, bind in E.
  assert (exists lo hi w1, create_entities m w = (Ret (lo, hi), w1)) as (lo & hi & w1 & Ec).
  { unfold create_entities, on_em, em_allocate_n, bind, get, put, ret. by eexists _, _, _. }
  rewrite Ec in *. cbn [fst snd] in *. injection E as <- <-. exists n. rewrite R. destruct X as (h' & P & ->).
  symmetry in P. apply Permutation_singleton_l in P as <-. done.
Qed.

(** attach and detach through the handle of an entity that exists, batch attach
    through the handle of a range.  A panicking attach takes the handle with it
    (it was moved into the call); a panicking detach leaves it. *)
Theorem C49_handle_attach c i id t v k r w' : quiet c i [JEntity id] (HAttach 0 t v k) ->
  exist id (cf_world c) = Ret true -> step (Attach t id v) (cf_world c) = (r, w') ->
  match r with
  | Ret _ => exists n, run (replicate n i) c = Some (goes_on c i w' [JEntity id] (k (Ret tt)))
  | Panic => exists n, run (replicate n i) c = Some (goes_on c i w' [] (k Panic))
  | _ => True
  end.
Proof.
  intros Q He E. set (w := cf_world c) in *.
  assert (runs_as (p_handle_attach t id v) [(LMan, false)] (entity_attach t id v) w [(LMan, false)]) as RA
    by (apply ra_handle_attach; [apply man_store|apply man_group]).
  destruct (run_quiet c i [JEntity id] _ (p_handle_attach t id v)
    (fun r => match r with Ret _ => compile [JEntity id] (k r) | _ => PRel LMan false (compile [] (k r)) end) _ _
    Q eq_refl (sp_attach t id v) RA) as (n & th' & R & X).
  fold w in R, X. cbn [step] in E. unfold attach_component, fmapM, bind at 1, get, bind at 1 2, lift in E. rewrite He in E.
  unfold assert, ret, bind in E. destruct (entity_attach t id v w) as [[[]| | |] w1]; cbn [fst snd] in *; injection E as <- <-; try done.
  - exists n. rewrite R. destruct X as (h' & P & ->). symmetry in P. apply Permutation_singleton_l in P as <-. done.
  - exists (n + 1). rewrite replicate_add, run_app, R, X. destruct Q as [Ht Q'].
    apply (run_rels i (cf_threads c) ltac:(by eapply lookup_lt_Some) ltac:(by eapply quiet_others) [(LMan, false)] []).
Qed.
Theorem C49_handle_detach c i id t k r w' : quiet c i [JEntity id] (HDetach 0 t k) ->
  exist id (cf_world c) = Ret true -> step (Detach t id) (cf_world c) = (r, w') ->
  match r with
  | Ret (OVal o) => exists n, run (replicate n i) c = Some (goes_on c i w' [JEntity id] (k (Ret o)))
  | Panic => exists n, run (replicate n i) c = Some (goes_on c i w' [JEntity id] (k Panic))
  | Ret _ => False
  | _ => True
  end.
Proof.
  intros Q He E. set (w := cf_world c) in *.
  assert (runs_as (p_handle_detach t id) [(LMan, false)] (entity_detach t id) w [(LMan, false)]) as RA
    by (apply ra_handle_detach; [apply man_store|apply man_group]).
  destruct (run_quiet c i [JEntity id] _ (p_handle_detach t id) (fun r => compile [JEntity id] (k r)) _ _
    Q eq_refl (sp_detach t id) RA) as (n & th' & R & X).
  fold w in R, X. cbn [step] in E. unfold detach_component, fmapM, bind at 1, get, bind at 1 2, lift in E. rewrite He in E.
  unfold assert, ret, bind in E. destruct (entity_detach t id w) as [[o| | |] w1]; cbn [fst snd] in *; injection E as <- <-; try done.
  - exists n. rewrite R. destruct X as (h' & P & ->). symmetry in P. apply Permutation_singleton_l in P as <-. done.
  - exists n. rewrite R, X. done.
Qed.
Theorem C49_handle_batch c i lo hi t vs k r w' : quiet c i [JEntities lo hi] (HBatch 0 t vs k) ->
  step (BatchAttach lo hi t vs) (cf_world c) = (r, w') ->
  match r with
  | Ret _ => exists n, run (replicate n i) c = Some (goes_on c i w' [JEntities lo hi] (k (Ret tt)))
  | Panic => exists n, run (replicate n i) c = Some (goes_on c i w' [] (k Panic))
  | _ => True
  end.
Proof.
  intros Q E. set (w := cf_world c) in *.
  assert (runs_as (p_batch lo hi t vs) [(LMan, false)] (entities_attach lo hi t vs) w [(LMan, false)]) as RA by (apply ra_batch, man_store).
  destruct (run_quiet c i [JEntities lo hi] _ (p_batch lo hi t vs)
    (fun r => match r with Ret _ => compile [JEntities lo hi] (k r) | _ => PRel LMan false (compile [] (k r)) end) _ _
    Q eq_refl (sp_batch lo hi t vs) RA) as (n & th' & R & X).
  fold w in R, X. cbn [step] in E. unfold fmapM, bind in E.
  destruct (entities_attach lo hi t vs w) as [[[]| | |] w1]; cbn [fst snd] in *; injection E as <- <-; try done.
  - exists n. rewrite R. destruct X as (h' & P & ->). symmetry in P. apply Permutation_singleton_l in P as <-. done.
  - exists (n + 1). rewrite replicate_add, run_app, R, X. destruct Q as [Ht Q'].
    apply (run_rels i (cf_threads c) ltac:(by eapply lookup_lt_Some) ltac:(by eapply quiet_others) [(LMan, false)] []).
Qed.

(** A world used by one thread only: wherever the thread has got to in its
    calls, it ends on the world of the history. *)
Theorem C49_one_thread w ops c : Forall callable ops ->
  Forall (fun ev => match ev.2 with Ret _ | Panic => True | _ => False end) (trace ops w) ->
  reaches w [asks ops (fun _ => Done)] c ->
  exists n c', run (replicate n 0) c = Some c' /\ finished c' 0 /\ cf_world c' = exec ops w.
Proof.
  intros C T [sched R]. set (cl := asks ops (fun _ => Done)) in *.
  assert (quiet (start w [cl]) 0 [] cl) as Q.
  { split; [done|]. by intros [|j] g Hj (th & Hth & Hg). }
  destruct (C49_history _ 0 ops (fun _ => Done) Q C T) as [N RN].
  assert (forall c0 c1 s, length (cf_threads c0) = 1 -> run s c0 = Some c1 -> s = replicate (length s) 0) as Z.
  { intros c0 c1 s. revert c0. induction s as [|j s IH]; intros c0 L H; [done|]. simpl in H.
    destruct (cstep j c0) as [c2|] eqn:E; [|done]. assert (j = 0 /\ length (cf_threads c2) = 1) as [-> L2].
    { unfold cstep in E. destruct (cf_threads c0 !! j) eqn:Ej; [|done]. pose proof (lookup_lt_Some _ _ _ Ej).
      destruct (tstep _ _ _) as [[th' w']|]; [|done]. injection E as <-. cbn [cf_threads]. rewrite insert_length. lia. }
    simpl. f_equal. by eapply IH. }
  pose proof (Z (start w [cl]) _ _ eq_refl R) as Es. set (m := length sched) in *. rewrite Es in R.
  change (cf_world (start w [cl])) with w in RN.
  set (fin := goes_on (start w [cl]) 0 (exec ops w) [] Done) in *.
  assert (cstep 0 fin = None) as Hend by done.
  destruct (decide (m <= N)) as [Hm|Hm].
  - exists (N - m), fin. split; [|split; [|done]].
    + replace N with (m + (N - m)) in RN by lia. rewrite replicate_add, run_app, R in RN. exact RN.
    + eexists. split; [by cbn|]. done.
  - replace m with (N + S (m - N - 1)) in R by lia. rewrite replicate_add, run_app, RN in R.
    cbn [replicate run] in R. by rewrite Hend in R.
Qed.
End c49.

(** A case: a group, attaching, a group query, detaching, removal, a panic. *)
Definition w49 : world nat := after [Register 1; Register 2; MakeGroup KFull 1 2].
Definition h49 : list (op nat) :=
  [CreateEntity; Attach 1 1 5; Attach 2 1 6; Query (QGroup KFull true false 1 2); Detach 2 1; RemoveEntity 1 [1; 2]; Exist 7].
Lemma start_quiet (w : world nat) k : quiet (start w [k]) 0 [] k.
Proof. split; [done|]. by intros [|j] g Hj (th & Hth & Hg). Qed.
Example C49_case : Forall callable h49 /\
  Forall (fun ev => match ev.2 with Ret _ | Panic => True | _ => False end) (trace h49 w49) /\
  (trace h49 w49).*2 = [Ret (OId 1); Ret OUnit; Ret OUnit; Ret (OItems [(1, V2 (VLeaf 5) (VLeaf 6))]); Ret (OVal (Some 6)); Ret OUnit; Panic] /\
  quiet (start w49 [asks h49 (fun _ => Done)]) 0 [] (asks h49 (fun _ => Done)).
Proof.
  split; [|split; [|split; [by vm_compute|apply start_quiet]]].
  - repeat constructor; set_solver.
  - vm_compute. repeat constructor.
Qed.
(** One that blocks: a query locking one storage twice. *)
Example C49_blocks_case : let q := Q2 (QRef true 1) (QRef false 1) in
  step (Query q) w49 = (Block, w49) /\ quiet (start w49 [Call (Query q) (fun _ => Done)]) 0 [] (Call (Query q) (fun _ => Done)).
Proof. split; [by vm_compute|apply start_quiet]. Qed.
(** [create_entity().attach(5)] and [create_entities(2).attach([3, 4])], the
    handles kept *)
Example C49_handle_case : let w := (step CreateEntity w49).2 in
  exist 1 w = Ret true /\ (step (Attach 1 1 5) w).1 = Ret OUnit /\
  quiet (goes_on (start w49 [Done]) 0 w [JEntity 1] (HAttach 0 1 5 (fun _ => Done))) 0 [JEntity 1] (HAttach 0 1 5 (fun _ => Done)).
Proof. split; [by vm_compute|]. split; [by vm_compute|]. eapply quiet_on, start_quiet. Qed.
Example C49_batch_case : let w := (step (CreateEntities 2) w49).2 in
  (step (CreateEntities 2) w49).1 = Ret (ORange 1 3) /\ (step (BatchAttach 1 3 1 [3; 4]) w).1 = Ret OUnit /\
  (step (BatchAttach 1 3 1 [3]) w).1 = Panic.
Proof. split; [by vm_compute|]. split; by vm_compute. Qed.

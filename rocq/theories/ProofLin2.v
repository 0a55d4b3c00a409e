(** Runs of calm clients, one call after the other. *)
From stdpp Require Import prelude list gmap.
From Verif Require Import Base Api ModelSparse ModelEntity ModelGroup ModelWorld ModelQuery ModelStep ModelConc SpecConc
  Spec History ProofSparse ProofEntity ProofWorld ProofMain ProofHistory ProofWf ProofTerm ProofConc ProofConc2 ProofConc3 ProofConc4 ProofConc5 ProofConc6 ProofConc7 ProofConc8 ProofConc9 ProofConc10 ProofConc11 ProofLin.

Section lin.
Context {V : Type}.
Local Notation event := (op V * outcome (out V))%type.
Implicit Types (w u : world V) (h : list (lock * bool)) (ids : list nat) (st : pend (V := V)) (c : conf V) (cl : client V) (e l : list event) (lk : lock).
Variable (w0 : world V).

(** ** Sequential runs *)
Definition seqrun w e w' : Prop := exec e.*1 w = w' /\ trace e.*1 w = e.
Lemma seqrun_nil w : seqrun w [] w.
Proof. done. Qed.
Lemma seqrun_app w e1 w1 e2 w2 : seqrun w e1 w1 -> seqrun w1 e2 w2 -> seqrun w (e1 ++ e2) w2.
Proof.
  intros [H1 H2] [H3 H4]. split; rewrite fmap_app.
  - by rewrite exec_app, H1.
  - by rewrite trace_app, H1, H2, H4.
Qed.
Lemma seqrun_one w o r w' : step o w = (r, w') -> seqrun w [(o, r)] w'.
Proof. intros H. split; simpl; by rewrite H. Qed.

(** ** A call on its way *)
Definition pending o st l : Prop := (st = Todo o /\ l = []) \/ exists r, st = Took r /\ l = [(o, r)].
Lemma lin_pending w st e st' w' o l : lin w st e st' w' -> pending o st l -> pending o st' (l ++ e) /\ seqrun w e w'.
Proof.
  intros H Hp. destruct H as [st|o' r w' Hs].
  - by rewrite app_nil_r.
  - destruct Hp as [[[= ->] ->]|(r' & [=] & _)]. split; [right; by exists r|by apply seqrun_one].
Qed.
Lemma ghosts_pending ids h u st e st' o l w : ghosts w0 ids h u st e st' -> pos w0 ids h u w -> pending o st l -> pending o st' (l ++ e) /\ seqrun w e w.
Proof.
  intros H Hw Hp. revert l Hp. induction H as [st|o' r e' st' Hs HG IH]; intros l Hp.
  - by rewrite app_nil_r.
  - destruct Hp as [[[= ->] ->]|(r' & [=] & _)]. destruct (IH [(o, r)]) as [H1 H2]; [right; by exists r|]. split; [done|].
    eapply (seqrun_app w [(o, r)] w); [|done]. apply seqrun_one. by apply Hs.
Qed.

Definition running {A} (p : prog V A) : Prop := match p with PRet _ | PPanic => False | _ => True end.
Lemma running_bind {A B} (p : prog V A) (k : A -> prog V B) : running p -> running (pbind p k).
Proof. by destruct p. Qed.
Lemma running_open q : running (p_open (V := V) q).
Proof. induction q; try done; cbn [p_open]; by apply running_bind. Qed.
Lemma running_call o : calm w0 o -> running (p_call o).
Proof. destruct o; try done; intros _; cbn [p_call]; apply running_bind, running_open. Qed.
Lemma running_catch {A B} (p : prog V A) m (k : outcome A -> list (lock * bool) -> prog V B) : running p -> running (catch m p k).
Proof. by destruct p. Qed.

(** where a thread is, [w] being the world, [h] its guards *)
Definition tinv w h cl (ans l : list event) (ph : phase (V := V)) : Prop :=
  made cl ans /\ calm_client w0 (rest cl ans) /\
  match ph with
  | Idle => l = [] /\ rest cl ans = Done
  | Busy o k mine p => running p /\ rest cl ans = Call o k /\ exists st ids u,
      pending o st l /\ pos w0 ids h u w /\ lw w0 st ids h u p (Qop w0)
  | Unwinding o k hs => hs <> [] /\ rest cl ans = Call o k /\ l = [(o, Panic)]
  end.
Lemma made_snoc cl l o k r : made cl l -> rest cl l = Call o k -> made cl (l ++ [(o, r)]) /\ rest cl (l ++ [(o, r)]) = k r.
Proof.
  revert cl. induction l as [|[o' r'] l IH]; intros cl; simpl.
  - intros _ Hr. change (cl = Call o k) in Hr. subst cl. done.
  - destruct cl; try done. intros [-> Hm] Hr. destruct (IH _ Hm Hr). done.
Qed.
Lemma tinv_enter w h cl ans : okw w0 w -> made cl ans -> calm_client w0 (rest cl ans) -> tinv w h cl ans [] (enter (rest cl ans)).
Proof.
  intros Hw Hm Hc. split; [done|]. split; [done|]. destruct (rest cl ans) as [|o k| | | | | | | | | | | | |] eqn:E; try done. cbn [enter].
  destruct Hc as [Ho Hk]. split; [by apply running_call|]. split; [done|]. exists (Todo o), [], w. split; [by left|].
  split; [apply pos_refl; [done|intros x Hx; by apply elem_of_nil in Hx]|]. by apply lw_call.
Qed.
Lemma tinv_next w h cl ans o k r : okw w0 w -> made cl ans -> calm_client w0 (rest cl ans) -> rest cl ans = Call o k ->
  tinv w h cl (ans ++ [(o, r)]) [] (enter (k r)).
Proof.
  intros Hw Hm Hc Hr. destruct (made_snoc cl ans o k r Hm Hr) as [H1 H2]. rewrite <- H2. apply tinv_enter; [done|done|]. rewrite H2. rewrite Hr in Hc. apply Hc.
Qed.
Lemma tinv_other w h cl ans l ph w' : okw w0 w' -> (forall x, x ∈ ents (w_em w) -> x ∈ ents (w_em w')) -> agree h w w' ->
  tinv w h cl ans l ph -> tinv w' h cl ans l ph.
Proof.
  intros Hw Hx Ha (H1 & H2 & H3). split; [done|]. split; [done|]. destruct ph; [done| |done].
  destruct H3 as (H3 & H4 & st & ids & u & H5 & (H6 & H7 & H8) & H9). split; [done|]. split; [done|]. exists st, ids, u. split; [done|].
  split; [|done]. split; [done|]. split; [intros x Hin; auto|]. by eapply agree_trans.
Qed.

Lemma prog_enter cl : calm_client w0 cl -> prog_of (enter cl) = compile [] cl.
Proof. by destruct cl. Qed.
(** settling *)
Lemma tinv_settle w h cl ans l o k mine p st ids u : okw w0 w -> made cl ans -> calm_client w0 (rest cl ans) -> rest cl ans = Call o k ->
  pending o st l -> pos w0 ids h u w -> lw0 w0 st ids h u p (Qop w0) ->
  exists e l' : list event, seqrun w e w /\ l ++ e = (settle (Busy o k mine p)).1 ++ l' /\
    tinv w h cl (ans ++ (settle (Busy o k mine p)).1) l' (settle (Busy o k mine p)).2 /\
    prog_of (settle (Busy o k mine p)).2 = catch mine p (fun r _ => compile [] (k r)).
Proof.
  intros Hw Hm Hc Hr Hp Hpos Hl. assert (forall r, calm_client w0 (k r)) as Hk by (rewrite Hr in Hc; apply Hc).
  assert (running p -> settle (Busy o k mine p) = ([], Busy o k mine p)) as Hrun by (destruct mine, p; done).
  assert (forall r, lw0 w0 st ids h u p (Qop w0) -> (p = PPanic /\ r = Panic \/ exists a, p = PRet a /\ r = Ret a) -> exists e, seqrun w e w /\ l ++ e = [(o, r)]) as Hend.
  { intros r H Hpr. assert (exists e, ghosts w0 ids h u st e (Took r)) as [e He]. { destruct Hpr as [[-> ->]|(a & -> & ->)]; exact H. }
    destruct (ghosts_pending _ _ _ _ _ _ _ _ _ He Hpos Hp) as [Hp' Hs]. exists e. split; [done|]. by destruct Hp' as [[[=] _]|(r' & [= <-] & ->)]. }
  assert (running p -> exists e l' : list event, seqrun w e w /\ l ++ e = [] ++ l' /\
    tinv w h cl (ans ++ []) l' (Busy o k mine p) /\ prog_of (Busy o k mine p) = catch mine p (fun r _ => compile [] (k r))) as Hgo.
  { intros Hrn. exists [], l. rewrite !app_nil_r. split; [done|]. split; [done|]. split; [|done]. split; [done|]. split; [done|].
    split; [done|]. split; [done|]. exists st, ids, u. split; [done|]. split; [done|]. by apply lw_now. }
  destruct p as [a| | | |lk x p|lk x p|B lab f p]; try (rewrite (Hrun I); by apply Hgo).
  - destruct (Hend (Ret a)) as (e & He & Hle); [done|right; by exists a|]. exists e, []. destruct mine; cbn [settle fst snd]; (split; [done|]); (split; [by rewrite app_nil_r|]);
    (split; [apply tinv_next; try done|]); cbn [catch]; by apply prog_enter.
  - destruct (Hend Panic) as (e & He & Hle); [done|by left|]. destruct mine as [|[lk x] mine]; cbn [settle fst snd].
    + exists e, []. split; [done|]. split; [by rewrite app_nil_r|]. split; [by apply tinv_next|]. by apply prog_enter.
    + exists e, [(o, Panic)]. split; [done|]. split; [done|]. split; [|done]. rewrite app_nil_r. done.
Qed.
Lemma drop_hold_in (y : lock * bool) lk x h : y ∈ drop_hold lk x h -> y ∈ h.
Proof.
  induction h as [|z h IH]; simpl; [done|]. destruct (decide _); [by right|]. intros Hy. apply elem_of_cons in Hy as [->|Hy]; [left|right; auto].
Qed.
Lemma conflict_app_l h h' lk x : conflict (h ++ h') lk x = false -> conflict h lk x = false.
Proof. unfold conflict. rewrite existsb_app. intros H. by apply orb_false_iff in H as [H _]. Qed.
Lemma known_of_pos ids h u w : pos w0 ids h u w -> known ids w.
Proof. intros (_ & H & _). done. Qed.
Lemma tinv_move w th cl ans l ph others th' w' :
  okw w0 w -> tinv w (th_holds th) cl ans l ph -> th_prog th = prog_of ph -> tstep others th w = Some (th', w') ->
  okw w0 w' -> (forall x, x ∈ ents (w_em w) -> x ∈ ents (w_em w')) ->
  exists e l' : list event, seqrun w e w' /\ l ++ e = (move w ph).1 ++ l' /\
    tinv w' (th_holds th') cl (ans ++ (move w ph).1) l' (move w ph).2 /\ th_prog th' = prog_of (move w ph).2.
Proof.
  intros Hw (Hm & Hc & HT) Hp Hs Hw' Hx. destruct th as [h p]. unfold tstep in Hs. cbn [th_prog th_holds] in *. subst p.
  destruct ph as [|o k mine p|o k hs]; cbn [prog_of] in Hs; [done|..].
  - destruct HT as (Hrn & Hr & st & ids & u & Hpe & Hpos & e0 & st0 & Hg0 & Hl).
    destruct (ghosts_pending _ _ _ _ _ _ _ _ _ Hg0 Hpos Hpe) as [Hpe0 Hs0].
    destruct p as [a| | | |lk x p|lk x p|B lab f p]; try done; cbn [catch] in Hs; cbn [move].
    + destruct (conflict (h ++ others) lk x) eqn:Ec; [done|]. injection Hs as <- <-. apply conflict_app_l in Ec.
      cbn [lw0] in Hl. destruct (Hl Ec w Hpos) as (e1 & st1 & Hg1 & Hl1).
      assert (pos w0 ids ((lk, x) :: h) w w) as Hpos1 by (apply pos_refl; [done|by eapply known_of_pos]).
      destruct (ghosts_pending _ _ _ _ _ _ _ _ _ Hg1 Hpos1 Hpe0) as [Hpe1 Hs1].
      destruct (tinv_settle w ((lk, x) :: h) cl ans _ o k ((lk, x) :: mine) p _ _ _ Hw Hm Hc Hr Hpe1 Hpos1 Hl1) as (e & l' & H1 & H2 & H3 & H4).
      exists (e0 ++ e1 ++ e), l'. split; [by do 2 (eapply seqrun_app; [done|])|]. split; [by rewrite !app_assoc, H2|]. split; [done|]. by rewrite H4.
    + injection Hs as <- <-. cbn [lw0] in Hl. destruct Hl as (e1 & st1 & Hg1 & Hl1).
      assert (pos w0 ids (drop_hold lk x h) u w) as Hpos1.
      { destruct Hpos as (P1 & P2 & P3). split; [done|]. split; [done|]. eapply agree_sub; [|exact P3]. intros y. apply drop_hold_in. }
      destruct (ghosts_pending _ _ _ _ _ _ _ _ _ Hg1 Hpos1 Hpe0) as [Hpe1 Hs1].
      destruct (tinv_settle w (drop_hold lk x h) cl ans _ o k (drop_hold lk x mine) p _ _ _ Hw Hm Hc Hr Hpe1 Hpos1 Hl1) as (e & l' & H1 & H2 & H3 & H4).
      exists (e0 ++ e1 ++ e), l'. split; [by do 2 (eapply seqrun_app; [done|])|]. split; [by rewrite !app_assoc, H2|]. split; [done|]. by rewrite H4.
    + cbn [lw0] in Hl. destruct Hl as [_ Hl]. destruct (Hl w Hpos) as (e1 & st1 & ids1 & Hlin & Hkn & Hres).
      destruct (f w) as [r w1] eqn:Ef. cbn [fst snd] in *. injection Hs as <- <-.
      destruct (lin_pending _ _ _ _ _ _ _ Hlin Hpe0) as [Hpe1 Hs1].
      assert (pos w0 ids1 h w1 w1) as Hpos1.
      { apply pos_refl; [done|]. apply Hkn; [done|]. intros y Hy. apply Hx. by eapply known_of_pos. }
      assert (forall p' st2 e2, ghosts w0 ids1 h w1 st1 e2 st2 -> lw0 w0 st2 ids1 h w1 p' (Qop w0) -> exists e l' : list event, seqrun w e w1 /\ l ++ e = (settle (Busy o k mine p')).1 ++ l' /\
        tinv w1 h cl (ans ++ (settle (Busy o k mine p')).1) l' (settle (Busy o k mine p')).2 /\
        catch mine p' (fun r _ => compile [] (k r)) = prog_of (settle (Busy o k mine p')).2) as Hgo.
      { intros p' st2 e2 Hg2 Hl2. destruct (ghosts_pending _ _ _ _ _ _ _ _ _ Hg2 Hpos1 Hpe1) as [Hpe2 Hs2].
        destruct (tinv_settle w1 h cl ans _ o k mine p' _ _ _ Hw' Hm Hc Hr Hpe2 Hpos1 Hl2) as (e & l' & H1 & H2 & H3 & H4).
        exists (e0 ++ e1 ++ e2 ++ e), l'. split; [by do 3 (eapply seqrun_app; [done|])|]. split; [by rewrite !app_assoc, H2|]. split; [done|]. by rewrite H4. }
      destruct r as [b| | |]; cbn [th_prog th_holds].
      * destruct Hres as (e2 & st2 & Hg2 & Hl2). by eapply Hgo.
      * exact (Hgo PPanic st1 [] (gh_nil _ _ _ _ _) Hres).
      * exact (Hgo PUB st1 [] (gh_nil _ _ _ _ _) Hres).
      * exact (Hgo PHang st1 [] (gh_nil _ _ _ _ _) Hres).
  - destruct HT as (Hne & Hr & ->). destruct hs as [|[lk x] hs]; [done|]. cbn [rels] in Hs. injection Hs as <- <-. cbn [move th_prog th_holds].
    assert (forall r, calm_client w0 (k r)) as Hk by (rewrite Hr in Hc; apply Hc).
    exists []. rewrite app_nil_r. destruct hs as [|y hs]; cbn [settle fst snd].
    + exists []. split; [done|]. split; [done|]. split; [by apply tinv_next|]. cbn [rels]. symmetry. by apply prog_enter.
    + exists [(o, Panic)]. split; [done|]. split; [done|]. split; [|done]. rewrite app_nil_r. done.
Qed.
(** labels *)
Lemma tinv_label w h cl ans l ph lab : tinv w h cl ans l ph -> next_label (Th h (prog_of ph)) = Some lab -> calm_label lab.
Proof.
  intros (_ & _ & HT). unfold next_label. cbn [th_prog]. destruct ph as [|o k mine p|o k hs]; cbn [prog_of]; [done|..].
  - destruct HT as (Hrn & Hr & st & ids & u & _ & _ & e0 & st0 & _ & Hl). destruct p; try done. cbn [catch]. intros [= <-]. apply Hl.
  - destruct HT as (Hne & _). destruct hs as [|[lk x] hs]; done.
Qed.
Lemma allocate_n_ents n (e : em) : em_allocate_n n e = (Ret (length (flags e), length (flags e) + n), EM (flags e ++ map Unavail (seq (length (ents e)) n)) (ents e ++ seq (length (flags e)) n)).
Proof. done. Qed.
Lemma em_moves lab w w' : calm_label lab -> moves lab w w' -> em_ok w -> em_ok w' /\ forall x, x ∈ ents (w_em w) -> x ∈ ents (w_em w').
Proof.
  intros Hl Hm Ho. assert (w_em w' = w_em w -> em_ok w' /\ forall x, x ∈ ents (w_em w) -> x ∈ ents (w_em w')) as Hsame.
  { unfold em_ok. intros ->. done. }
  destruct lab; try done; cbn [moves effect] in Hm.
  - by apply Hsame; rewrite Hm.
  - destruct (em_alloc w Ho) as (id & e' & E & Ho' & _ & Hin). subst w'. unfold on_em. rewrite E. by split.
  - subst w'. destruct Ho as (m & free & H). destruct (em_allocate_n_spec _ _ _ n H) as (e' & E & H'). unfold on_em. rewrite E. split; [by eexists _, _|].
    rewrite allocate_n_ents in E. intros x Hx. assert (e' = EM (flags (w_em w) ++ map Unavail (seq (length (ents (w_em w))) n)) (ents (w_em w) ++ seq (length (flags (w_em w))) n)) as -> by congruence. simpl. apply elem_of_app. by left.
  - apply Hsame. subst w'. unfold storage_mut. destruct (w_comps w !! t) as [s|]; [|done]. destruct (_ =? _); [|done]. by destruct (ss_add _ _ _).
  - apply Hsame. subst w'. unfold storage_mut. destruct (w_comps w !! t) as [s|]; [|done]. destruct (_ =? _); [|done]. by destruct (ss_remove _ _).
  - apply Hsame. symmetry. apply Hm.
  - apply Hsame. symmetry. apply Hm.
Qed.

(** ** Runs *)
Variables (cs : list (client V)).
Hypothesis (Hcs : Forall (calm_client w0) cs) (Hem : em_ok w0).
Lemma follow_snoc i ph sched j c cm c' : run sched c = Some cm -> cstep j cm = Some c' ->
  follow i ph (sched ++ [j]) c = let f := follow i ph sched c in let m := if decide (j = i) then move (cf_world cm) f.2 else ([], f.2) in (f.1 ++ m.1, m.2).
Proof.
  revert c ph. induction sched as [|a sched IH]; intros c ph Hr Hc; cbn [follow app run] in *.
  - injection Hr as ->. rewrite Hc. cbn. by rewrite app_nil_r.
  - destruct (cstep a c) as [c1|]; [|done]. rewrite (IH c1 _ Hr Hc). cbn [fst snd]. by rewrite app_assoc.
Qed.
Lemma by_thread_snoc {A} i sched (evs : list (list A)) j ev : length evs = length sched ->
  by_thread i (sched ++ [j]) (evs ++ [ev]) = by_thread i sched evs ++ (if decide (j = i) then ev else []).
Proof.
  revert evs. induction sched as [|a sched IH]; intros [|b evs] Hl; try done; cbn.
  - by rewrite app_nil_r.
  - rewrite IH by (simpl in Hl; lia). by rewrite app_assoc.
Qed.
Definition inv_at (sched : list nat) (evs : list (list event)) c : Prop :=
  seqrun w0 (concat evs) (cf_world c) /\
  forall i cl, cs !! i = Some cl -> exists th (l : list event),
    let f := follow i (enter cl) sched (start w0 cs) in
    cf_threads c !! i = Some th /\ by_thread i sched evs = f.1 ++ l /\ tinv (cf_world c) (th_holds th) cl f.1 l f.2 /\ th_prog th = prog_of f.2.
Lemma okw_run c : reaches w0 cs c -> em_ok (cf_world c) -> okw w0 (cf_world c).
Proof. intros H He. split; [|done]. apply (reach_any _ _ _ H). Qed.
Lemma inv_start : inv_at [] [] (start w0 cs).
Proof.
  split; [apply seqrun_nil|]. intros i cl Hi. exists (Th [] (compile [] cl)), []. cbn [follow fst snd by_thread app].
  assert (calm_client w0 cl) as Hc by (eapply Forall_lookup_1; eauto).
  split; [unfold start; simpl; by rewrite list_lookup_fmap, Hi|]. split; [done|]. split; [|symmetry; by apply prog_enter].
  change cl with (rest cl []) at 3. apply tinv_enter; [split; [apply shape_refl|done]|done|done].
Qed.
Lemma inv_step sched evs c j c' : run sched (start w0 cs) = Some c -> length evs = length sched -> em_ok (cf_world c) -> inv_at sched evs c -> cstep j c = Some c' ->
  exists ev, em_ok (cf_world c') /\ inv_at (sched ++ [j]) (evs ++ [ev]) c'.
Proof.
  intros Hrun Hlen He [HW HT] Hc. assert (reaches w0 cs c) as HR by (by exists sched). pose proof (reach_any _ _ _ HR) as HI.
  pose proof (okw_run c HR He) as Hok.
  destruct (cf_threads c !! j) as [th|] eqn:Hj; [|unfold cstep in Hc; by rewrite Hj in Hc].
  assert (length (cf_threads c) = length cs) as Hlc.
  { clear -Hrun. revert Hrun. assert (length (cf_threads (start w0 cs)) = length cs) as E by (simpl; apply map_length). rewrite <- E. clear E. generalize (start w0 cs).
    induction sched as [|a s IH]; intros c0; cbn [run]; [by intros [= ->]|]. destruct (cstep a c0) as [c1|] eqn:E; [|done]. intros H. rewrite (IH c1 H).
    unfold cstep in E. destruct (cf_threads c0 !! a); [|done]. destruct (tstep _ _ _) as [[t' w']|]; [|done]. injection E as <-. simpl. by rewrite insert_length. }
  destruct (lookup_lt_is_Some_2 cs j) as [cl Hcl]; [rewrite <- Hlc; by eapply lookup_lt_Some|].
  destruct (HT j cl Hcl) as (th0 & l & Hth0 & Hby & Htv & Hpr). rewrite Hj in Hth0. injection Hth0 as <-. set (f := follow j (enter cl) sched (start w0 cs)) in *.
  assert (em_ok (cf_world c') /\ forall x, x ∈ ents (w_em (cf_world c)) -> x ∈ ents (w_em (cf_world c'))) as [He' Hgrow].
  { destruct (did j c) as [lab|] eqn:Ed.
    - destruct (cstep_piece _ _ _ j c c' lab HI Ed Hc) as (th1 & _ & Hm & _). eapply em_moves; [|exact Hm|done].
      eapply tinv_label; [exact Htv|]. unfold did in Ed. rewrite Hj in Ed. destruct th as [h p]. cbn [th_prog th_holds] in *. by subst p.
    - rewrite (cstep_quiet j c c' Ed Hc). by split. }
  assert (okw w0 (cf_world c')) as Hok' by (apply okw_run; [by eapply reaches_step|done]).
  pose proof Hc as Hc0. unfold cstep in Hc. rewrite Hj in Hc. destruct (tstep _ th (cf_world c)) as [[th' w']|] eqn:Ets; [|done]. injection Hc as <-. cbn [cf_world cf_threads] in *.
  destruct (tinv_move _ _ _ _ _ _ _ _ _ Hok Htv Hpr Ets Hok' Hgrow) as (ev & l' & H1 & H2 & H3 & H4).
  exists ev. split; [done|]. split.
  - rewrite concat_app. cbn [concat]. rewrite app_nil_r. by eapply seqrun_app.
  - intros i cli Hcli. rewrite (follow_snoc i (enter cli) sched j _ _ _ Hrun Hc0). rewrite by_thread_snoc by done. cbn zeta. destruct (decide (j = i)) as [->|Hij].
    + rewrite Hcl in Hcli. injection Hcli as <-. exists th', l'. cbn [fst snd]. split; [by apply list_lookup_insert; eapply lookup_lt_Some|].
      split; [|done]. rewrite Hby, <- !app_assoc. by f_equal.
    + destruct (HT i cli Hcli) as (thi & li & Hthi & Hbyi & Htvi & Hpri). exists thi, li. cbn [fst snd cf_threads cf_world]. rewrite !app_nil_r.
      split; [by rewrite list_lookup_insert_ne|]. split; [done|]. split; [|done]. eapply tinv_other; [done|done| |exact Htvi].
      split; [eapply shape_trans; [apply shape_sym; apply Hok|apply Hok']|]. intros lk x Hin. change w' with (cf_world (Cf w' (<[j:=th']> (cf_threads c)))).
      eapply step_protect; [exact HI|exact Hij|exact Hthi|exact Hin|exact Hc0].
Qed.
Lemma inv_run sched c : run sched (start w0 cs) = Some c -> exists evs, length evs = length sched /\
  forall n cn, n <= length sched -> run (take n sched) (start w0 cs) = Some cn -> em_ok (cf_world cn) /\ inv_at (take n sched) (take n evs) cn.
Proof.
  revert c. induction sched as [|j sched IH] using rev_ind; intros c Hr.
  - exists []. split; [done|]. intros n cn Hn Hrn. assert (n = 0) as -> by (simpl in Hn; lia). cbn [take run] in *. injection Hrn as <-. split; [done|apply inv_start].
  - rewrite <- run_app in Hr. destruct (run sched (start w0 cs)) as [cm|] eqn:Em; [|done]. cbn [mbind option_bind run] in Hr.
    destruct (cstep j cm) as [c1|] eqn:Ec; [|done]. injection Hr as <-. destruct (IH cm eq_refl) as (evs & Hl & H).
    destruct (H (length sched) cm) as [He Hinv]; [done|by rewrite take_ge|]. rewrite take_ge in Hinv by done. rewrite take_ge in Hinv by lia.
    destruct (inv_step sched evs cm j c1 Em Hl He Hinv Ec) as (ev & He1 & Hinv1). exists (evs ++ [ev]). split; [rewrite !app_length; simpl; lia|].
    intros n cn Hn Hrn. destruct (decide (n <= length sched)) as [Hle|Hgt].
    + rewrite take_app_le in Hrn by done. rewrite !take_app_le by lia. by apply H.
    + rewrite take_ge in Hrn by (rewrite app_length in *; simpl in *; lia). rewrite !take_ge by (rewrite app_length in *; simpl in *; lia).
      rewrite <- run_app, Em in Hrn. cbn [mbind option_bind run] in Hrn. rewrite Ec in Hrn. injection Hrn as <-. done.
Qed.
End lin.

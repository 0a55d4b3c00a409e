(** C56: whom ids are handed to, threads and removals whatever. *)
From stdpp Require Import prelude list gmap.
From Verif Require Import Base Api ModelSparse ModelEntity ModelGroup ModelWorld ModelQuery ModelStep ModelConc SpecConc ModelLife
  Spec History Rules ProofSparse ProofEntity ProofGroup ProofWorld ProofOps ProofRemove ProofMain ProofHistory ProofHistory2 ProofWf ProofConc4 ProofConc5
  ProofConc8 ProofConc9 ProofConc10 ProofConc11 ProofEm SpecApart ProofLin2 ProofApart4 SpecLoose ProofLoose ProofLoose2 PropEntity PropComp PropLoose PropLooseEnt SpecLife PropLife PropLife2.

Lemma times_app x l k : times x (l ++ k) = times x l + times x k.
Proof. apply count_occ_app. Qed.
Lemma times_sub x l k : l ⊆+ k -> times x l <= times x k.
Proof. intros (m & Hm)%submseteq_Permutation. pose proof (proj1 (Permutation_count_occ Nat.eq_dec _ _) Hm x) as E. unfold times. rewrite E, count_occ_app. lia. Qed.
Lemma times_perm x l k : l ≡ₚ k -> times x l = times x k.
Proof. intros H. exact (proj1 (Permutation_count_occ Nat.eq_dec _ _) H x). Qed.
Lemma times_nodup x l : NoDup l -> times x l <= 1.
Proof. intros H. apply NoDup_ListNoDup in H. by apply NoDup_count_occ. Qed.
Lemma times_none x l : x ∉ l -> times x l = 0.
Proof. intros H. apply count_occ_not_In. by rewrite <- elem_of_list_In. Qed.

Section ids.
Context {V : Type}.
Lemma run_snoc_inv s i (c c' : conf V) : run (s ++ [i]) c = Some c' -> exists cm, run s c = Some cm /\ cstep i cm = Some c'.
Proof.
  revert c. induction s as [|a s IH]; intros c; cbn [run app].
  - destruct (cstep i c) as [c1|] eqn:E; [|done]. intros [= <-]. by exists c.
  - destruct (cstep a c) as [c1|]; [apply IH|done].
Qed.
Implicit Types (w : world V) (c : conf V) (cl : client V) (ph : phase (V := V)) (o : op V).

(** ** What a thread allocates and what it is told *)
Definition allotted (lab : label V) w : list nat :=
  match lab with
  | BNew => match (em_allocate (w_em w)).1 with Ret id => [id] | _ => [] end
  | BAlloc n => match (em_allocate_n n (w_em w)).1 with Ret (lo, hi) => seq lo (hi - lo) | _ => [] end
  | _ => []
  end.
Fixpoint fresh (o : op V) (ids : list nat) (p : prog V (out V)) : Prop :=
  match p with
  | PRet a => handed_ev (o, Ret a) ⊆+ ids
  | PPanic | PUB | PHang => True
  | PAcq _ _ p' | PRel _ _ p' => fresh o ids p'
  | PAct lab f k => forall w b, (f w).1 = Ret b -> fresh o (ids ++ allotted lab w) (k b)
  end.
Lemma fresh_none o ids p : (forall a, handed_ev (o, Ret a) = []) -> fresh o ids p.
Proof.
  intros H. revert ids. induction p as [a| | | |l x p IH|l x p IH|B lab f k IH]; intros ids; cbn [fresh]; try done.
  - rewrite H. apply submseteq_nil_l.
Qed.
Lemma fresh_call o : fresh o [] (p_call o).
Proof.
  assert ((forall a, handed_ev (o, Ret a) = []) \/ o = CreateEntity \/ exists n, o = CreateEntities n) as [H|[->|[n ->]]].
  { destruct o; try (by left); right; [by left|right; by eexists]. }
  - by apply fresh_none.
  - assert (forall w id, (on_em em_allocate w).1 = Ret id -> allotted BNew w = [id]) as K.
    { intros w id E. unfold on_em in E. cbn [allotted]. destruct (em_allocate (w_em w)) as [r e']. cbn [fst] in *. by subst r. }
    cbn -[allotted]. intros w id E w1 b _. destruct b; cbn -[allotted]; [|done]. rewrite (K w id E). done.
  - assert (forall w lo hi, (on_em (em_allocate_n n) w).1 = Ret (lo, hi) -> allotted (BAlloc n) w = seq lo (hi - lo)) as K.
    { intros w lo hi E. unfold on_em in E. cbn [allotted]. destruct (em_allocate_n n (w_em w)) as [r e']. cbn [fst] in *. by subst r. }
    cbn -[allotted]. intros w [lo hi] E. cbn -[allotted]. rewrite (K w lo hi E). done.
Qed.
Definition watched (cur : list nat) ph : Prop :=
  match ph with
  | Idle => True
  | Busy o k mine p => running p /\ fresh o cur p /\ forall r, calls_only (k r)
  | Unwinding o k hs => hs <> [] /\ forall r, calls_only (k r)
  end.
Lemma enter_watched cl : calls_only cl -> watched [] (enter cl) /\ prog_of (enter cl) = compile [] cl.
Proof.
  intros H. split; [|by apply prog_enter']. destruct cl as [|o k| | | | | | | | | | | | |]; try done. cbn [enter]. split; [by eapply running_shared|]. split; [apply fresh_call|apply H].
Qed.
(** [sum told cur l]: told what, in the present call, out of [l] *)
Definition within (told cur l : list nat) : Prop := told ++ cur ⊆+ l.
Lemma settle_watched o k mine p cur : fresh o cur p -> (forall r, calls_only (k r)) ->
  exists cur', watched cur' (settle (Busy o k mine p)).2 /\ prog_of (settle (Busy o k mine p)).2 = catch mine p (fun r _ => compile [] (k r)) /\
    ((settle (Busy o k mine p)).1 ≫= handed_ev) ++ cur' ⊆+ cur.
Proof.
  intros Ha Hk. assert (running p -> settle (Busy o k mine p) = ([], Busy o k mine p)) as Hrun by (destruct mine, p; done).
  destruct p as [a| | | |lk x p|lk x p|B lab f p]; try (rewrite (Hrun I); exists cur; done).
  - assert (settle (Busy o k mine (PRet a)) = ([(o, Ret a)], enter (k (Ret a)))) as -> by (by destruct mine). cbn [fst snd]. destruct (enter_watched (k (Ret a))) as [He Hp]; [done|].
    exists []. split; [done|]. split; [done|]. cbn [mbind list_bind]. rewrite !app_nil_r. exact Ha.
  - destruct mine as [|y mine].
    + cbn [settle fst snd]. destruct (enter_watched (k Panic)) as [He Hp]; [done|]. exists []. split; [done|]. split; [done|].
      cbn [mbind list_bind]. rewrite !app_nil_r. assert (handed_ev (o, Panic) = []) as -> by (by destruct o). apply submseteq_nil_l.
    + cbn [settle fst snd]. exists []. split; [done|]. split; [done|]. apply submseteq_nil_l.
Qed.
Definition step_ids (i : nat) c : list nat := match did i c with Some lab => allotted lab (cf_world c) | None => [] end.
Lemma move_watched i c th c' cur ph : cf_threads c !! i = Some th -> watched cur ph -> th_prog th = prog_of ph -> cstep i c = Some c' ->
  exists cur' th', cf_threads c' !! i = Some th' /\ watched cur' (move (cf_world c) ph).2 /\ th_prog th' = prog_of (move (cf_world c) ph).2 /\
    ((move (cf_world c) ph).1 ≫= handed_ev) ++ cur' ⊆+ cur ++ step_ids i c.
Proof.
  intros Hi Hph Hpr Hs. unfold step_ids, did, next_label. rewrite Hi. unfold cstep in Hs. rewrite Hi in Hs.
  destruct (tstep (holds_of_others i (cf_threads c)) th (cf_world c)) as [[th' w']|] eqn:Et; [|done]. injection Hs as <-. cbn [cf_threads].
  assert (<[i:=th']> (cf_threads c) !! i = Some th') as Hi'. { apply list_lookup_insert. by eapply lookup_lt_Some. }
  unfold tstep in Et. rewrite Hpr in *. destruct ph as [|o k mine p|o k hs]; [done|..].
  - destruct Hph as (Hr & Ha & Hk). cbn [prog_of] in *. destruct p as [a| | | |lk x p|lk x p|B lab f p]; try done; cbn [catch] in *; cbn [move].
    + destruct (conflict (th_holds th ++ _) lk x); [done|]. injection Et as <- <-. destruct (settle_watched o k ((lk, x) :: mine) p cur Ha Hk) as (cur' & E1 & E2 & E3).
      eexists cur', _. split; [exact Hi'|]. split; [done|]. split; [by rewrite E2|]. by rewrite app_nil_r.
    + injection Et as <- <-. destruct (settle_watched o k (drop_hold lk x mine) p cur Ha Hk) as (cur' & E1 & E2 & E3).
      eexists cur', _. split; [exact Hi'|]. split; [done|]. split; [by rewrite E2|]. by rewrite app_nil_r.
    + cbn [fresh] in Ha. specialize (Ha (cf_world c)). destruct (f (cf_world c)) as [r w1]. cbn [fst] in *. injection Et as <- <-.
      assert (forall q, fresh o (cur ++ allotted lab (cf_world c)) q -> th_prog {| th_holds := th_holds th; th_prog := catch mine q (fun r _ => compile [] (k r)) |} = catch mine q (fun r _ => compile [] (k r)) /\
        exists cur', watched cur' (settle (Busy o k mine q)).2 /\ prog_of (settle (Busy o k mine q)).2 = catch mine q (fun r _ => compile [] (k r)) /\
          ((settle (Busy o k mine q)).1 ≫= handed_ev) ++ cur' ⊆+ cur ++ allotted lab (cf_world c)) as Hx.
      { intros q Hq. split; [done|]. by apply settle_watched. }
      destruct r as [b| | |].
      * destruct (Hx (p b)) as (_ & cur' & E1 & E2 & E3); [by apply Ha|]. eexists cur', _. split; [exact Hi'|]. split; [exact E1|]. split; [by rewrite E2|exact E3].
      * destruct (Hx PPanic) as (_ & cur' & E1 & E2 & E3); [done|]. eexists cur', _. split; [exact Hi'|]. split; [exact E1|]. split; [by rewrite E2|exact E3].
      * destruct (Hx PUB) as (_ & cur' & E1 & E2 & E3); [done|]. eexists cur', _. split; [exact Hi'|]. split; [exact E1|]. split; [by rewrite E2|exact E3].
      * destruct (Hx PHang) as (_ & cur' & E1 & E2 & E3); [done|]. eexists cur', _. split; [exact Hi'|]. split; [exact E1|]. split; [by rewrite E2|exact E3].
  - destruct Hph as (Hne & Hk). destruct hs as [|[lk x] hs]; [done|]. cbn [prog_of rels] in *. injection Et as <- <-. cbn [move].
    destruct hs as [|y hs].
    + cbn [settle fst snd]. destruct (enter_watched (k Panic)) as [He Hp]; [done|]. eexists [], _. split; [exact Hi'|]. split; [done|]. split; [by rewrite Hp|].
      cbn [mbind list_bind]. assert (handed_ev (o, Panic) = []) as -> by (by destruct o). apply submseteq_nil_l.
    + cbn [settle fst snd]. eexists [], _. split; [exact Hi'|]. split; [done|]. split; [done|]. apply submseteq_nil_l.
Qed.
(** the ids thread [i] allocates along a run; those all threads do *)
Fixpoint alloc_of (i : nat) (sched : list nat) c : list nat :=
  match sched with
  | [] => []
  | j :: sched' => match cstep j c with Some c' => (if decide (j = i) then step_ids j c else []) ++ alloc_of i sched' c' | None => [] end
  end.
Fixpoint alloc_all (sched : list nat) c : list nat :=
  match sched with
  | [] => []
  | j :: sched' => match cstep j c with Some c' => step_ids j c ++ alloc_all sched' c' | None => [] end
  end.
Lemma alloc_of_snoc i sched j c cm c' : run sched c = Some cm -> cstep j cm = Some c' ->
  alloc_of i (sched ++ [j]) c = alloc_of i sched c ++ (if decide (j = i) then step_ids j cm else []).
Proof.
  revert c. induction sched as [|a sched IH]; intros c Hr Hc; cbn [alloc_of app run] in *.
  - injection Hr as ->. rewrite Hc. by rewrite app_nil_r.
  - destruct (cstep a c) as [c1|]; [|done]. rewrite (IH c1 Hr Hc). by rewrite app_assoc.
Qed.
Lemma alloc_all_snoc sched j c cm c' : run sched c = Some cm -> cstep j cm = Some c' -> alloc_all (sched ++ [j]) c = alloc_all sched c ++ step_ids j cm.
Proof.
  revert c. induction sched as [|a sched IH]; intros c Hr Hc; cbn [alloc_all app run] in *.
  - injection Hr as ->. rewrite Hc. by rewrite app_nil_r.
  - destruct (cstep a c) as [c1|]; [|done]. rewrite (IH c1 Hr Hc). by rewrite app_assoc.
Qed.
Lemma told_alloc w0 cs sched c i cl : cs !! i = Some cl -> calls_only cl -> run sched (start w0 cs) = Some c ->
  exists cur th, cf_threads c !! i = Some th /\
    watched cur (follow i (enter cl) sched (start w0 cs)).2 /\ th_prog th = prog_of (follow i (enter cl) sched (start w0 cs)).2 /\
    ((follow i (enter cl) sched (start w0 cs)).1 ≫= handed_ev) ++ cur ⊆+ alloc_of i sched (start w0 cs).
Proof.
  intros Hi Hcl. revert c. induction sched as [|j sched IH] using rev_ind; intros c Hr.
  - injection Hr as <-. destruct (enter_watched cl Hcl) as [H1 H2]. exists [], (Th [] (compile [] cl)). cbn [start cf_threads follow fst snd th_prog]. rewrite list_lookup_fmap, Hi. done.
  - apply run_snoc_inv in Hr as (cm & Hr & Hc). destruct (IH cm Hr) as (cur & th & Ht & Hw & Hp & Hs). rewrite (follow_snoc i _ _ _ _ _ _ Hr Hc). cbn zeta.
    rewrite (alloc_of_snoc i sched j _ cm c Hr Hc). destruct (decide (j = i)) as [->|Hne]; cbn [fst snd].
    + destruct (move_watched i cm th c cur _ Ht Hw Hp Hc) as (cur' & th' & E1 & E2 & E3 & E4). exists cur', th'. split; [done|]. split; [done|]. split; [done|].
      rewrite bind_app, <- app_assoc. etransitivity; [apply submseteq_app; [reflexivity|exact E4]|]. rewrite app_assoc. by apply submseteq_app.
    + exists cur, th. rewrite !app_nil_r. split; [|done]. unfold cstep in Hc. destruct (cf_threads cm !! j) as [tj|]; [|done].
      destruct (tstep _ tj _) as [[tj' w']|]; [|done]. injection Hc as <-. cbn [cf_threads]. by rewrite list_lookup_insert_ne.
Qed.
Lemma spread (is : list nat) (f : nat -> list nat) j x : NoDup is -> (is ≫= fun i => (if decide (j = i) then x else []) ++ f i) ⊆+ x ++ (is ≫= f).
Proof.
  induction is as [|i is IH]; intros Hn; [apply submseteq_nil_l|]. apply NoDup_cons in Hn as [Hi Hn]. cbn [mbind list_bind]. destruct (decide (j = i)) as [->|Hne].
  - rewrite <- app_assoc. apply submseteq_app; [done|]. apply submseteq_app; [done|]. apply reflexive_eq. clear IH Hn. induction is as [|k is IH]; [done|]. cbn [mbind list_bind].
    apply not_elem_of_cons in Hi as [Hk Hi]. rewrite decide_False by done. cbn [app]. f_equal. by apply IH.
  - cbn [app]. rewrite (app_assoc x), (Permutation_app_comm x), <- app_assoc. apply submseteq_app; [done|]. by apply IH.
Qed.
Lemma alloc_spread (is : list nat) sched c : NoDup is -> (is ≫= fun i => alloc_of i sched c) ⊆+ alloc_all sched c.
Proof.
  intros Hn. revert c. induction sched as [|j sched IH]; intros c; cbn [alloc_of alloc_all].
  - clear Hn. apply reflexive_eq. induction is as [|a is IHi]; [reflexivity|]. cbn [mbind list_bind app]. exact IHi.
  - destruct (cstep j c) as [c'|].
    + etransitivity; [by apply spread|]. apply submseteq_app; [done|apply IH].
    + clear Hn. apply reflexive_eq. clear IH. induction is as [|a is IHi]; [reflexivity|]. cbn [mbind list_bind app]. exact IHi.
Qed.
Lemma told_all w0 cs sched c (is : list nat) : NoDup is -> (forall i, i ∈ is -> exists cl, cs !! i = Some cl /\ calls_only cl) -> run sched (start w0 cs) = Some c ->
  (is ≫= fun i => match cs !! i with Some cl => (follow i (enter cl) sched (start w0 cs)).1 ≫= handed_ev | None => [] end) ⊆+ alloc_all sched (start w0 cs).
Proof.
  intros Hn Hcs Hr. etransitivity; [|by apply (alloc_spread is)]. clear Hn. induction is as [|i is IH]; [done|]. cbn [mbind list_bind]. apply submseteq_app.
  - destruct (Hcs i) as (cl & Hi & Hcl); [by left|]. rewrite Hi. destruct (told_alloc w0 cs sched c i cl Hi Hcl Hr) as (cur & th & _ & _ & _ & Hs).
    etransitivity; [|exact Hs]. by apply submseteq_inserts_r.
  - apply IH. intros k Hk. apply Hcs. by right.
Qed.
(** ** One call after another *)
Lemma alive_was_handed (ops : list (op V)) id : rules ops -> id ∈ alive (seen ops) -> id ∈ handed (seen ops).
Proof. intros L. destruct (reached ops L) as [H A]. rewrite (ag_alive _ _ A), (ag_handed _ _ A). by intros []. Qed.
Lemma ids_step (ops : list (op V)) o id : rules (ops ++ [o]) ->
  times id (handed_ev (o, answer ops o)) + one (id ∈ alive (seen ops)) =
  times id (removed_ev (o, answer ops o)) + one (id ∈ alive (seen (ops ++ [o]))).
Proof.
  intros L. apply rules_snoc in L as [L Lo]. rewrite seen_snoc, alive_snoc.
  assert (handed_ev (o, answer ops o) = [] -> removed_ev (o, answer ops o) = [] -> alive_event (alive (seen ops)) (o, answer ops o) = alive (seen ops)) as Hidle.
  { intros E1 E2. cbn [alive_event]. assert (alive_event (alive (seen ops)) (o, answer ops o) = alive (seen ops) ∪ list_to_set (handed_ev (o, answer ops o))) as E.
    { revert E2. destruct o; try done. cbn [removed_ev alive_event]. by destruct (answer ops _). }
    cbn [alive_event] in E. rewrite E, E1. cbn. set_solver. }
  destruct (decide (handed_ev (o, answer ops o) = [])) as [E1|E1]; [destruct (decide (removed_ev (o, answer ops o) = [])) as [E2|E2]|].
  - rewrite (Hidle E1 E2), E1, E2. done.
  - rewrite E1. destruct o; try done. cbn [removed_ev alive_event] in *. destruct (answer ops (RemoveEntity id0 ord)) as [y| | |] eqn:Ea; try done.
    assert (id0 ∈ alive (seen ops)) as Hin.
    { destruct (decide (id0 ∈ alive (seen ops))) as [|Hn]; [done|]. exfalso. destruct Lo as (H1 & Hw & _). destruct (reached ops L) as [HR A]. rewrite <- (ag_wait _ _ A) in Hw.
      pose proof (C15_remove_dead_partial ops id0 ord L H1 Hn Hw) as E. unfold answer in Ea. rewrite E in Ea. done. }
    unfold times, one. cbn [count_occ]. destruct (Nat.eq_dec id0 id) as [->|Hne].
    + rewrite decide_True by done. rewrite decide_False by set_solver. lia.
    + destruct (decide (id ∈ alive (seen ops))); [rewrite decide_True by set_solver|rewrite decide_False by set_solver]; lia.
  - assert (removed_ev (o, answer ops o) = []) as E2 by (destruct o; done). rewrite E2. change (times id []) with 0.
    assert (alive_event (alive (seen ops)) (o, answer ops o) = alive (seen ops) ∪ list_to_set (handed_ev (o, answer ops o))) as E by (destruct o; done).
    rewrite E. unfold one.
    assert (NoDup (handed_ev (o, answer ops o)) /\ forall j, j ∈ handed_ev (o, answer ops o) -> j ∉ alive (seen ops)) as [Hn Hf].
    { destruct o; try done.
      - destruct (C08_create_fresh ops L) as (i & -> & _ & Hi & _). cbn [handed_ev]. split; [apply NoDup_singleton|]. by intros j ->%elem_of_list_singleton.
      - destruct (C10_create_entities ops n L) as (-> & Hi & _). cbn [handed_ev]. split; [apply NoDup_seq|]. intros j Hj%elem_of_seq Ha.
        destruct (Hi j) as [Hh _]; [lia|]. apply Hh. by apply alive_was_handed. }
    destruct (decide (id ∈ handed_ev (o, answer ops o))) as [Hi|Hi].
    + rewrite decide_False by (by apply Hf). rewrite decide_True by set_solver. pose proof (times_nodup id _ Hn). unfold times in *.
      apply elem_of_list_In, (count_occ_In Nat.eq_dec) in Hi. lia.
    + rewrite (times_none _ _ Hi). destruct (decide (id ∈ alive (seen ops))); [rewrite decide_True by set_solver|rewrite decide_False by set_solver]; lia.
Qed.
Lemma ids_run (ops0 ops : list (op V)) id : rules (ops0 ++ ops) ->
  times id (trace ops (after ops0) ≫= handed_ev) + one (id ∈ alive (seen ops0)) =
  times id (trace ops (after ops0) ≫= removed_ev) + one (id ∈ alive (seen (ops0 ++ ops))).
Proof.
  induction ops as [|o ops IH] using rev_ind; intros L; [by rewrite app_nil_r|]. rewrite app_assoc in *. pose proof (ids_step _ o id L) as Hs. apply rules_snoc in L as [L _].
  specialize (IH L). rewrite trace_app, !bind_app, !times_app. cbn [trace mbind list_bind]. rewrite !app_nil_r.
  assert ((step o (exec ops (after ops0))).1 = answer (ops0 ++ ops) o) as ->. { unfold answer, after. by rewrite exec_app. } lia.
Qed.

(** ** In the life of a world *)
Implicit Types (s : life V) (acts : list (action V)).
Lemma deeds_app a1 a2 s s1 : lived a1 s = Some s1 -> deeds (a1 ++ a2) s = deeds a1 s ++ deeds a2 s1.
Proof.
  revert s. induction a1 as [|a a1 IH]; intros s H; cbn [lived deeds app] in *; [by injection H as ->|].
  destruct (act1 a s) as [s2|]; [|done]. by rewrite (IH s2 H), app_assoc.
Qed.
Lemma alloc_more sched c c' p : run sched c = Some c' -> alloc_all sched (Cf (cf_world c) (cf_threads c ++ [Th [] p])) = alloc_all sched c.
Proof.
  revert c. induction sched as [|i sched IH]; intros c; cbn [run alloc_all]; [done|].
  destruct (cstep i c) as [c1|] eqn:E; [|done]. intros H. destruct c as [w ths]. cbn [cf_world cf_threads]. rewrite (cstep_snoc _ _ _ _ p E). rewrite (IH c1 H). f_equal.
  unfold step_ids, did, next_label. cbn [cf_threads cf_world]. unfold cstep in E. cbn [cf_threads cf_world] in E. destruct (ths !! i) as [th|] eqn:Ei; [|done].
  by rewrite (lookup_app_l_Some _ _ _ _ Ei).
Qed.
Lemma alloc_handed acts0 acts s0 s : neat (acts0 ++ acts) -> lived acts0 born = Some s0 -> lf_users s0 = [] ->
  Forall (fun a => exclusive a = false) acts -> lived acts s0 = Some s ->
  alloc_all (moved acts) (start (lf_world s0) (entered acts)) = trace (deeds acts s0) (after (deeds acts0 born)) ≫= handed_ev.
Proof.
  intros N H0 Hu. revert s. induction acts as [|a acts IH] using rev_ind; intros s He H; [done|].
  rewrite app_assoc in N. apply neat_snoc in N as [N _]. apply Forall_app in He as [He Ha]. apply Forall_cons in Ha as [Ha _]. apply lived_snoc in H as (s1 & H1 & E).
  specialize (IH N s1 He H1). pose proof (phase_run acts s0 s1 Hu He H1) as Hr. rewrite (deeds_snoc _ _ _ _ _ H1 E).
  assert (lived (acts0 ++ acts) born = Some s1) as HL by (by rewrite lived_app, H0). destruct (life_ids _ s1 N HL) as (L & _ & Hem). rewrite (deeds_app _ _ _ _ H0) in Hem, L.
  destruct (C08_create_fresh _ L) as (new & Hnew & _). unfold answer, after in Hnew. rewrite exec_app in Hnew. fold (after (deeds acts0 born)) in Hnew. clear L.
  rewrite trace_app, bind_app, moved_app, entered_app, <- IH. unfold after in Hem at 1. rewrite exec_app in Hem. fold (after (deeds acts0 born)) in Hem.
  destruct a as [cl|i|o]; try done; cbn [moved entered act1 deed] in *; rewrite !app_nil_r.
  - unfold start. rewrite map_app. cbn [map]. exact (alloc_more _ _ _ (compile [] cl) Hr).
  - destruct (cstep i (conf_of s1)) as [c'|] eqn:Ec; [|done]. rewrite (alloc_all_snoc _ _ _ _ _ Hr Ec). f_equal. unfold step_ids. cbn [cf_world conf_of].
    revert Hem Hnew. generalize (exec (deeds acts s0) (after (deeds acts0 born))). intros w Hem Hnew.
    destruct (did i (conf_of s1)) as [lab|]; [|done]. destruct lab; try done; cbn [trace mbind list_bind]; rewrite app_nil_r.
    + destruct (create_same _ _ Hem) as [E1 _]. rewrite <- E1 in *. rewrite Hnew. cbn [handed_ev allotted]. cbn [step] in Hnew. rewrite fmapM_fst in Hnew.
      unfold create_entity, on_em, bind, get, lift in Hnew. destruct (em_allocate (w_em (lf_world s1))) as [[id| | |] e']; try discriminate Hnew. cbn [fst] in *.
      destruct (exist id _) as [[]| | |]; try discriminate Hnew. cbn in Hnew. by injection Hnew as ->.
    + destruct (creates_same n _ _ Hem) as [<- _]. cbn [step allotted]. rewrite fmapM_fst. unfold create_entities, on_em.
      destruct (em_allocate_n n (w_em (lf_world s1))) as [[[lo hi]| | |] e']; done.
Qed.
(** Let threads share the world from [s0] on, whatever they do; let [is] be
    some of them that make calls (no handles), [h] the creations and removals
    that took effect so far.  An id has been handed to [is] at most as often
    as it was removed, and once more if it is alive now; once less if it was
    alive at the beginning. *)
Theorem C56_ids_conserved acts0 acts s0 s (is : list nat) id : neat (acts0 ++ acts) -> lived acts0 born = Some s0 -> lf_users s0 = [] ->
  Forall (fun a => exclusive a = false) acts -> lived acts s0 = Some s ->
  NoDup is -> (forall i, i ∈ is -> exists cl, entered acts !! i = Some cl /\ calls_only cl) ->
  let h0 := seen (deeds acts0 born) in
  let h := trace (deeds acts s0) (after (deeds acts0 born)) in
  times id (is ≫= fun i => told acts s0 i ≫= handed_ev) + one (id ∈ alive h0) <= times id (h ≫= removed_ev) + one (id ∈ alive (h0 ++ h)).
Proof.
  intros N H0 Hu He H Hn Hcs h0 h. pose proof (phase_run acts s0 s Hu He H) as Hr.
  pose proof (told_all (lf_world s0) (entered acts) (moved acts) _ is Hn Hcs Hr) as Ht. rewrite (alloc_handed acts0 acts s0 s N H0 Hu He H) in Ht. fold h in Ht.
  apply (times_sub id) in Ht. assert (lived (acts0 ++ acts) born = Some s) as HL by (by rewrite lived_app, H0). destruct (life_ids _ s N HL) as (L & _ & _).
  rewrite (deeds_app _ _ _ _ H0) in L. pose proof (ids_run _ _ id L) as E. 
  assert (seen (deeds acts0 born ++ deeds acts s0) = h0 ++ h) as Es by (by unfold seen; rewrite trace_app). rewrite Es in E. fold h h0 in E.
  assert (times id (is ≫= fun i => told acts s0 i ≫= handed_ev) = times id (is ≫= fun i => match entered acts !! i with
    Some cl => (follow i (enter cl) (moved acts) (start (lf_world s0) (entered acts))).1 ≫= handed_ev | None => [] end)) as ->; [|lia].
  f_equal. apply list_bind_ext; [|done]. intros i. unfold told. by destruct (entered acts !! i).
Qed.
(** So: two threads that got the same id, or one that got it twice, or one
    that got an id alive before: the id was removed in between. *)
Theorem C56_same_id acts0 acts s0 s i j id : neat (acts0 ++ acts) -> lived acts0 born = Some s0 -> lf_users s0 = [] ->
  Forall (fun a => exclusive a = false) acts -> lived acts s0 = Some s ->
  i <> j -> (forall k cl, k = i \/ k = j -> entered acts !! k = Some cl -> calls_only cl) ->
  id ∈ (told acts s0 i ≫= handed_ev) -> id ∈ (told acts s0 j ≫= handed_ev) ->
  exists n ord, deeds acts s0 !! n = Some (RemoveEntity id ord) /\ id ∈ alive (seen (deeds acts0 born ++ take n (deeds acts s0))).
Proof.
  intros N H0 Hu He H Hij Hcs Hi Hj.
  assert (forall k, id ∈ (told acts s0 k ≫= handed_ev) -> exists cl, entered acts !! k = Some cl) as Hen.
  { intros k. unfold told. destruct (entered acts !! k) as [cl|]; [by exists cl|]. by intros ?%elem_of_nil. }
  pose proof (C56_ids_conserved acts0 acts s0 s [i; j] id N H0 Hu He H) as K. cbn zeta in K.
  assert (lived (acts0 ++ acts) born = Some s) as HL by (by rewrite lived_app, H0). destruct (life_ids _ s N HL) as (L & _ & _). rewrite (deeds_app _ _ _ _ H0) in L.
  assert (1 <= times id (trace (deeds acts s0) (after (deeds acts0 born)) ≫= removed_ev)) as Hr.
  { assert (2 <= times id ([i; j] ≫= fun i => told acts s0 i ≫= handed_ev)) as H2.
    { cbn [mbind list_bind]. rewrite app_nil_r, times_app. apply elem_of_list_In, (count_occ_In Nat.eq_dec) in Hi, Hj. unfold times. lia. }
    unfold one in K. feed specialize K.
    { apply NoDup_cons. split; [by intros ->%elem_of_list_singleton|apply NoDup_singleton]. }
    { intros k Hk. assert (k = i \/ k = j) as Hk' by (set_solver). destruct (Hen k) as [cl Hcl]; [by destruct Hk' as [->| ->]|]. exists cl. split; [done|by eapply Hcs]. }
    repeat case_decide; lia. }
  clear K. apply (count_occ_In Nat.eq_dec), elem_of_list_In, elem_of_list_bind in Hr as ([o r] & Hid & Hin). apply elem_of_list_lookup in Hin as [n Hn].
  assert (forall (ops : list (op V)) w n o r, trace ops w !! n = Some (o, r) -> ops !! n = Some o /\ r = (step o (exec (take n ops) w)).1) as Htr.
  { clear. induction ops as [|o' ops IH]; intros w n o r; [done|]. destruct n as [|n]; cbn [trace lookup list_lookup take exec]; [by intros [= <- <-]|]. apply IH. }
  apply Htr in Hn as [Hn Hrr]. destruct o; try (cbn in Hid; by apply elem_of_nil in Hid). cbn [removed_ev] in Hid.
  destruct r as [y| | |]; try (by apply elem_of_nil in Hid). apply elem_of_list_singleton in Hid as <-.
  exists n, ord. split; [done|]. rewrite <- (take_drop_middle _ _ _ Hn) in L. rewrite app_assoc in L.
  assert (rules ((deeds acts0 born ++ take n (deeds acts s0)) ++ [RemoveEntity id ord])) as L1.
  { revert L. generalize (deeds acts0 born ++ take n (deeds acts s0)) (drop (S n) (deeds acts s0)). intros l1 l2. replace (l1 ++ RemoveEntity id ord :: l2) with ((l1 ++ [RemoveEntity id ord]) ++ l2) by (by rewrite <- app_assoc).
    induction l2 as [|x l2 IH] using rev_ind; [by rewrite app_nil_r|]. rewrite app_assoc. intros [Lx _]%rules_snoc. by apply IH. }
  pose proof L1 as L0. apply rules_snoc in L0 as [L0 (H1 & Hw & _)]. destruct (reached _ L0) as [HR A]. rewrite <- (ag_wait _ _ A) in Hw.
  destruct (decide (id ∈ alive (seen (deeds acts0 born ++ take n (deeds acts s0))))) as [|Hd]; [done|]. exfalso.
  pose proof (C15_remove_dead_partial _ id ord L0 H1 Hd Hw) as E. unfold after in E, Hrr. rewrite exec_app in E. rewrite E in Hrr. done.
Qed.
End ids.

(** ** Concrete case *)
(** One thread creates an entity and removes it, the other creates two: it
    gets the id too. *)
Definition brief : client nat := Call CreateEntity (fun r => match r with Ret (OId id) => Call (RemoveEntity id []) (fun _ => Done) | _ => Done end).
Definition steady : client nat := Call CreateEntity (fun _ => Call CreateEntity (fun _ => Done)).
Definition one_id : list (action nat) := [Enter brief; Enter steady] ++ map Move (replicate 13 0 ++ replicate 12 1).
Example C56_case : neat ([] ++ one_id) /\ lived [] born = Some (born (V := nat)) /\ lf_users (born (V := nat)) = [] /\
  Forall (fun a => exclusive a = false) one_id /\ lived one_id born = Some (lf_at one_id) /\
  (forall k cl, k = 0 \/ k = 1 -> entered one_id !! k = Some cl -> calls_only cl) /\
  told one_id born 0 = [(CreateEntity, Ret (OId 1)); (RemoveEntity 1 [], Ret OUnit)] /\
  told one_id born 1 = [(CreateEntity, Ret (OId 1)); (CreateEntity, Ret (OId 2))] /\
  deeds one_id born = [CreateEntity; RemoveEntity 1 []; CreateEntity; CreateEntity].
Proof.
  split; [apply neatb_ok; vm_compute; reflexivity|]. split; [done|]. split; [done|]. split; [by repeat constructor|].
  split; [apply lf_at_ok; vm_compute; reflexivity|].
  split. { change (entered one_id) with [brief; steady]. intros k cl [->| ->]; cbn; intros [= <-].
    - split; [done|]. by intros [[]| | |].
    - by split. }
  split; [vm_compute; reflexivity|]. split; vm_compute; reflexivity.
Qed.

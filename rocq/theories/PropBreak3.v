(** C58: what [remove_entity] broken off leaves behind. *)
From stdpp Require Import prelude list gmap.
From Verif Require PropOrder PropGroup.
From Verif Require Import PropConc SpecValue SpecValue2 ProofValue ProofValue3 PropValue PropValue2.
From Verif Require Import Base Api ModelSparse ModelEntity ModelGroup ModelWorld ModelQuery ModelStep ModelConc SpecConc ModelLife
  Spec History Rules ProofSparse ProofEntity ProofGroup ProofWorld ProofOps ProofRemove ProofMain ProofHistory ProofWf ProofTerm ProofConc ProofConc2 ProofConc3 ProofConc4 ProofConc5
  ProofConc6 ProofConc7 ProofConc8 ProofConc9 ProofConc10 ProofConc11 ProofEm
  ProofQueryMut ProofQuery3 ProofQuery4 SpecLoose ProofLoose ProofLoose2 PropEntity PropComp PropWorld PropQuery PropSafe PropLoose PropLooseEnt SpecLife PropLife PropLife2
  ModelBreak SpecBreak PropBreak PropBreak2.

Section breaks.
Context {V : Type}.
Implicit Types (s : ModelLife.life V) (bs : list (baction V)) (w : world V) (b : baction V) (ops : list (op V)) (P : world V -> Prop).

(** ** Programs step by step: [P] holds of the world after every piece of
    work, and [Q] when the program returns *)
Fixpoint walk {A} (P : world V -> Prop) (Q : A -> world V -> Prop) (p : prog V A) w : Prop :=
  match p with
  | PRet a => Q a w
  | PPanic | PUB | PHang => True
  | PAcq _ _ k | PRel _ _ k => walk P Q k w
  | PAct lab f k => match lab with BKill _ _ => False | _ => True end /\ P (f w).2 /\
      match f w with (Ret b, w') => walk P Q (k b) w' | _ => True end
  end.
Lemma walk_mono {A} P (Q Q' : A -> world V -> Prop) (p : prog V A) w : (forall a w, Q a w -> Q' a w) -> walk P Q p w -> walk P Q' p w.
Proof.
  intros HQ. revert w. induction p as [a| | | |l x k IH|l x k IH|B lab f k IH]; intros w; cbn [walk]; try done; auto.
  intros (Hl & HP & H). do 2 (split; [done|]). destruct (f w) as [[b| | |] w']; try done. by apply IH.
Qed.
Lemma walk_bind {A B} P Q (p : prog V A) (k : A -> prog V B) w :
  walk P (fun a w' => walk P Q (k a) w') p w -> walk P Q (pbind p k) w.
Proof.
  revert w. induction p as [a| | | |l x p IH|l x p IH|C lab f kk IH]; intros w; cbn [walk pbind]; try done; auto.
  intros (Hl & HP & H). do 2 (split; [done|]). destruct (f w) as [[b| | |] w']; try done. by apply IH.
Qed.
Definition whatever {A} (_ : A) (_ : world V) : Prop := True.
Lemma walk_rels {A} P Q h (k : prog V A) w : walk P Q k w -> walk P Q (rels h k) w.
Proof. induction h as [|[l x] h IH]; [done|]. exact IH. Qed.
Lemma walk_catch {A} P mine (p : prog V A) w : walk P whatever p w -> walk P whatever (catch mine p (fun _ _ => PRet tt)) w.
Proof.
  revert mine w. induction p as [a| | | |l x k IH|l x k IH|C lab f kk IH]; intros mine w; cbn [walk catch]; try done; auto.
  - intros _. by apply walk_rels.
  - intros (Hl & HP & H). destruct (f w) as [o w'] eqn:E. split; [done|]. split; [done|].
    destruct o as [b| | |]; [by apply IH|by apply walk_rels|done|done].
Qed.

(** ** A user alone *)
Record lone (P : world V -> Prop) s : Prop := { ln_p : P (lf_world s); ln_w : exists th, lf_users s = [th] /\ walk P whatever (th_prog th) (lf_world s) }.
Lemma lone_move P s s' : lone P s -> act1b (BAct (Move 0)) s = Some s' -> lone P s'.
Proof.
  intros [HP (th & Hu & Hw)]. cbn [act1b act1]. unfold cstep, conf_of. cbn [cf_threads cf_world]. rewrite Hu. cbn [lookup list_lookup].
  unfold tstep. destruct (th_prog th) as [a| | | |l x k|l x k|B lab f k]; cbn [walk] in Hw; try done.
  - destruct (conflict _ l x); [done|]. intros [= <-]. split; [done|]. by eexists.
  - intros [= <-]. split; [done|]. by eexists.
  - destruct Hw as (_ & HP' & Hw). destruct (f (lf_world s)) as [[b| | |] w']; intros [= <-]; (split; [exact HP'|]); by eexists.
Qed.
Lemma lone_moves P n s s' : lone P s -> livedb (replicate n (BAct (Move 0))) s = Some s' -> lone P s'.
Proof.
  revert s. induction n as [|n IH]; intros s L; cbn [replicate livedb]; [by intros [= <-]|].
  destruct (act1b _ s) as [s1|] eqn:E; [|done]. apply IH. by eapply lone_move.
Qed.
Lemma lone_break P half h e cl s s' : lone P s -> act1b (Break half 0 h e cl) s = Some s' -> half = false /\ P (lf_world s').
Proof.
  intros [HP (th & Hu & Hw)] E. cbn [act1b] in E. apply break_inv in E as (th' & w' & Hi & _ & _ & _ & -> & Hh). rewrite Hu in Hi. injection Hi as <-.
  destruct half; [|by subst w'; split]. destruct Hh as (j & id & B & f & k & Hp & _). rewrite Hp in Hw. cbn [walk] in Hw. by destruct Hw.
Qed.

Lemma do_all ops w s : livedb (map (fun o => BAct (Do o)) ops) (ModelLife.Life w []) = Some s -> s = ModelLife.Life (exec ops w) [].
Proof.
  revert w. induction ops as [|o ops IH]; intros w; cbn [map livedb exec]; [by intros [= <-]|].
  destruct (act1b (BAct (Do o)) _) as [s1|] eqn:E; [|done]. cbn [act1b] in E. apply act_do in E as [-> _]. cbn [lf_world]. apply IH.
Qed.

(** ** Removing the components one by one *)
Definition no_member aw id : Prop := forall ag, ag ∈ a_groups (V := V) aw -> id ∉ ag_mem ag.
Lemma drop_is_detach w aw t id : R (V := V) w aw -> no_member aw id -> storage_has w id t = true -> exist id w = Ret true ->
  dyn_mut t (cs_remove id) w = (Ret tt, (step (Detach t id) w).2) /\ w_em (step (Detach t id) w).2 = w_em w /\
  (forall u, u <> t -> storage_has (step (Detach t id) w).2 id u = storage_has w id u).
Proof.
  intros H Hn Hs He. unfold storage_has in Hs. destruct (w_comps w !! t) as [st|] eqn:Hst; [|done].
  destruct (srel_Some_r _ _ _ _ _ (R_st _ _ H) Hst) as (m & Hm & Ty & Rt).
  assert (exists v, m !! id = Some v) as [v Hv].
  { rewrite (rep_exist _ _ _ id Rt) in Hs. by apply bool_decide_eq_true in Hs. }
  destruct (remove_rep id (st_set st) m _ v Rt Hv) as (s' & i & el & E & _).
  set (w' := set_comps (<[t := St (st_ty st) s']> (w_comps w)) w).
  assert ((step (Detach t id) w).2 = w') as ->.
  { cbn [step]. unfold fmapM. assert (detach_component t id w = (Ret (Some v), w')) as Ed; [|by rewrite (bind_ret _ _ _ _ _ Ed)].
    unfold detach_component. rewrite bind_get, He, bind_lift, bind_assert_true by done. unfold entity_detach. rewrite bind_get.
    rewrite bind_assert_true by (unfold has_registered; apply bool_decide_true; by exists st).
    rewrite (bind_ret _ _ w tt w).
    2:{ apply for_each_id. intros j Hj. pose proof (groups_with_lt _ _ _ _ _ (R_gr _ _ H) Hj) as Hlt.
        destruct (lookup_lt_is_Some_2 _ _ Hlt) as [ag Hag]. destruct (Forall2_lookup_r _ _ _ _ _ (R_gr _ _ H) Hag) as (g & Hg & Hok).
        eapply run_remove_absent; [apply H|done|done|]. apply Hn. by eapply elem_of_list_lookup_2. }
    unfold storage_mut. rewrite Hst, Ty, Nat.eqb_refl, E. unfold w'. by rewrite Ty. }
  split; [|split].
  - unfold dyn_mut. rewrite Hst. unfold cs_remove. by rewrite (bind_ret _ _ _ _ _ E).
  - done.
  - intros u Hu. unfold storage_has, w'. cbn [set_comps w_comps]. by rewrite lookup_insert_ne.
Qed.
Lemma detach_no_member aw t id : no_member aw id -> no_member (anext aw (Detach t id)) id.
Proof.
  intros Hn. cbn [anext]. destruct (a_exist aw id) as [[]| | |]; try done. destruct (decide (has aw t id)); [|done].
  intros ag Hag. unfold a_detach in Hag. cbn in Hag. apply elem_of_list_fmap in Hag as (g & -> & Hg). cbn. specialize (Hn g Hg). destruct (ag_types g t); set_solver.
Qed.

(** the calls that take the components [ts] from [id] *)
Definition taking (id : nat) (ts : list tid) : list (op V) := map (fun t => Detach t id) ts.
Record stage ops id (todo : list tid) w : Prop := {
  sg_w : w = after ops;
  sg_rules : rules ops;
  sg_free : no_member (aexec ops a_init) id;
  sg_live : exist id w = Ret true;
  sg_has : forall t, t ∈ todo -> storage_has w id t = true
}.
Lemma stage_step ops id t ts w : 1 <= id -> NoDup (t :: ts) -> stage ops id (t :: ts) w ->
  dyn_mut t (cs_remove id) w = (Ret tt, after (ops ++ [Detach t id])) /\ stage (ops ++ [Detach t id]) id ts (after (ops ++ [Detach t id])).
Proof.
  intros Hid [Ht Nd]%NoDup_cons [-> Hr Hf Hl Hh]. destruct (reached ops Hr) as [H _].
  destruct (drop_is_detach _ _ t id H Hf (Hh t ltac:(left)) Hl) as (E & Em & Eh). rewrite after_snoc. split; [done|].
  split.
  - by rewrite after_snoc.
  - by apply rules_snoc.
  - rewrite aexec_app. cbn [aexec]. by apply detach_no_member.
  - unfold exist in *. by rewrite Em.
  - intros u Hu. rewrite Eh by (intros ->; done). apply Hh. by right.
Qed.
Lemma each_stage ops id ts w : 1 <= id -> NoDup ts -> stage ops id ts w ->
  for_each ts (fun t => dyn_mut t (cs_remove id)) w = (Ret tt, after (ops ++ taking id ts)).
Proof.
  intros Hid. revert ops w. induction ts as [|t ts IH]; intros ops w Nd S.
  - cbn. rewrite app_nil_r. by rewrite (sg_w _ _ _ _ S).
  - destruct (stage_step ops id t ts w Hid Nd S) as [E S']. cbn [for_each]. rewrite (bind_ret _ _ _ _ _ E).
    rewrite (IH _ _ (proj2 (proj1 (NoDup_cons _ _) Nd)) S'). cbn [taking map]. by rewrite <- app_assoc.
Qed.
Lemma bind_snd {S A B} (m : M S A) (k : A -> M S B) x a y : m x = (Ret a, y) -> (bind m k x).2 = (k a y).2.
Proof. intros H. by rewrite (bind_ret _ _ _ _ _ H). Qed.
Lemma not_in ops id w ord : rules ops -> w = after ops -> no_member (aexec ops a_init) id -> exist id w = Ret true ->
  1 <= id -> NoDup ord -> (step (RemoveEntity id ord) w).2 = (on_em (em_remove id) (after (ops ++ taking id (storages_with w id ord)))).2.
Proof.
  intros Hr -> Hf Hl Hid Nd. destruct (reached ops Hr) as [H _].
  assert (forall (m : M (world V) unit) x, (fmapM (fun _ => @OUnit V) m x).2 = (m x).2) as Hs.
  { intros m x. unfold fmapM, bind, ret. by destruct (m x) as [[]]. }
  cbn [step]. rewrite Hs. unfold remove_entity. rewrite bind_get, Hl, bind_lift, bind_assert_true by done.
  rewrite (ProofRemove.collect_spec _ _ _ id _ _ 0 (R_st _ _ H) (R_gr _ _ H)), bind_lift.
  assert (mem_pos id (a_groups (aexec ops a_init)) 0 = []) as ->.
  { apply elem_of_nil_inv. intros i. rewrite mem_pos_elem. intros (j & g & _ & Hg & Hm). apply (Hf g); [by eapply elem_of_list_lookup_2|done]. }
  cbn [for_each]. rewrite bind_retv, bind_get.
  rewrite (bind_ret _ _ _ _ _ (each_stage ops id (storages_with (after ops) id ord) (after ops) Hid
    (NoDup_filter _ _ Nd) ltac:(split; try done; intros t Ht; by apply elem_of_list_filter in Ht as [? _]))).
  done.
Qed.
Lemma walk_drops P ops id ts w : 1 <= id -> NoDup ts -> stage ops id ts w -> (forall k, P (after (ops ++ taking id (take k ts)))) ->
  walk P (fun _ w' => w' = after (ops ++ taking id ts)) (pfor ts (fun t => act (BDrop t id) (dyn_mut t (cs_remove id)) ;;; rel (LStore t) true)) w.
Proof.
  intros Hid. revert ops w. induction ts as [|t ts IH]; intros ops w Nd S HP.
  - cbn. rewrite app_nil_r. apply S.
  - destruct (stage_step ops id t ts w Hid Nd S) as [E S']. cbn [pfor]. apply walk_bind. apply walk_bind. unfold act. cbn [walk]. rewrite E.
    split; [done|]. split; [exact (HP 1)|].
    assert (forall l, ops ++ taking id (t :: l) = (ops ++ [Detach t id]) ++ taking id l) as Ha by (intros l; by rewrite <- app_assoc).
    rewrite Ha. cbn [pbind rel walk]. apply IH; [by apply NoDup_cons in Nd as [_ Nd]|done|]. intros k. rewrite <- Ha. exact (HP (Datatypes.S k)).
Qed.
Lemma walk_storage P t x w : P w -> walk P (fun _ w' => w' = w) (p_storage t x) w.
Proof. intros HP. unfold p_storage, look, act, passert. cbn. split; [done|]. split; [done|]. by destruct (has_registered t w). Qed.
Lemma walk_find_in P id i n w : P w -> (forall j, in_group_at (V := V) j id w <> Ret true) ->
  walk P (fun gs w' => gs = [] /\ w' = w) (p_find_in id i n) w.
Proof.
  intros HP Hn. revert i. induction n as [|n IH]; intros i; cbn [p_find_in]; [done|].
  apply walk_bind. cbn [acq walk]. apply walk_bind. unfold look, act. cbn [walk fst snd]. split; [done|]. split; [done|].
  apply walk_bind. destruct (group_head i w) as [[[k a] b]|]; cbn [punwrap walk]; [|done].
  apply walk_bind. eapply walk_mono; [|by apply walk_storage]. intros [] w1 ->.
  apply walk_bind. eapply walk_mono; [|by apply walk_storage]. intros [] w1 ->.
  apply walk_bind. unfold ask, act. cbn [walk fst snd]. split; [done|]. split; [done|]. specialize (Hn i).
  destruct (in_group_at i id w) as [[]| | |]; [done| |done|done|done]. cbn [rel pbind walk]. apply IH.
Qed.
Lemma walk_find_storages P id ord w : P w ->
  walk P (fun ts w' => ts = storages_with w id ord /\ w' = w) (p_find_storages id ord) w.
Proof.
  intros HP. induction ord as [|t ord IH]; cbn [p_find_storages]; [done|]. unfold storages_with. rewrite filter_cons.
  apply walk_bind. cbn [acq walk]. apply walk_bind. unfold look, act. cbn [walk fst snd]. split; [done|]. split; [done|].
  cbn [rel pbind walk]. destruct (storage_has w id t).
  - rewrite decide_True by done. apply walk_bind. cbn [acq walk]. apply walk_bind. eapply walk_mono; [|exact IH]. intros l w1 [-> ->]. done.
  - rewrite decide_False by done. exact IH.
Qed.
Lemma walk_remove P ops id ord w : 1 <= id -> NoDup ord -> rules ops -> w = after ops -> no_member (aexec ops a_init) id ->
  (forall k, P (after (ops ++ taking id (take k (storages_with w id ord))))) -> P (step (RemoveEntity id ord) w).2 ->
  walk P whatever (p_remove id ord) w.
Proof.
  intros Hid Nd Hr Hw Hf HP HL. assert (P w) as P0. { specialize (HP 0). cbn in HP. rewrite app_nil_r, <- Hw in HP. done. }
  unfold p_remove. apply walk_bind. unfold p_exist, ask, act. apply walk_bind. cbn [acq walk]. apply walk_bind. cbn [walk fst snd]. split; [done|]. split; [done|].
  destruct (exist id w) as [b| | |] eqn:He; [|done|done|done]. cbn [rel pbind walk]. apply walk_bind. destruct b; cbn [passert walk]; [|done].
  apply walk_bind. unfold look, act. cbn [walk fst snd]. split; [done|]. split; [done|].
  apply walk_bind. eapply walk_mono; [|apply walk_find_in; [done|]].
  2:{ intros j. subst w. destruct (reached ops Hr) as [H _]. unfold in_group_at. destruct (w_groups (after ops) !! j) as [g|] eqn:Hg; [|done].
      destruct (Forall2_lookup_l _ _ _ _ _ (R_gr _ _ H) Hg) as (ag & Hag & Hok). rewrite (gstat_types _ _ (gok_stat _ _ _ Hok)).
      destruct (gok_dyn _ _ _ Hok) as (sa & sb & Ha & Hb & _). rewrite Ha, Hb. rewrite (g_in_group_spec _ _ _ _ _ _ _ id (R_st _ _ H) Hok Ha Hb).
      rewrite bool_decide_false; [done|]. apply Hf. by eapply elem_of_list_lookup_2. }
  intros gs w1 [-> ->]. apply walk_bind. cbn [p_each_group walk]. 
  apply walk_bind. eapply walk_mono; [|by apply walk_find_storages]. intros ts w1 [-> ->].
  apply walk_bind. eapply walk_mono; [|eapply walk_drops; [exact Hid|by apply NoDup_filter| |exact HP]].
  2:{ split; try done. intros t Ht. by apply elem_of_list_filter in Ht as [? _]. }
  intros [] w1 ->. apply walk_bind. cbn [acq walk]. split; [done|].
  rewrite (not_in ops id w ord Hr Hw Hf He Hid Nd) in HL. split; [exact HL|].
  by destruct (on_em (em_remove id) _) as [[b| | |] w2].
Qed.

(** After calls [ops] that kept the rules, a user alone calls [remove_entity]
    on an entity that is in no group (of no group has it both types).
    Wherever the call is broken off, the world is exactly as if the first so
    many components of the entity had been taken from it one after another by
    [detach_component], or as if the call had been made to the end. *)
Theorem C58_remove ops id ord n half h e cl s : rules (ops ++ [RemoveEntity id ord]) ->
  (forall k a a', (k, a, a') ∈ groups_of (seen ops) -> value_of (seen ops) a id = None \/ value_of (seen ops) a' id = None) ->
  livedb (map (fun o => BAct (Do o)) ops ++ BAct (Enter (Call (RemoveEntity id ord) (fun _ => Done))) :: replicate n (BAct (Move 0)) ++ [Break half 0 h e cl]) born = Some s ->
  (exists k, let ops' := ops ++ map (fun t => Detach t id) (take k (holding ops id ord)) in rules ops' /\ lf_world s = after ops') \/
  lf_world s = after (ops ++ [RemoveEntity id ord]).
Proof.
  intros [Hr Hl]%rules_snoc Hg Hs. cbn [legal] in Hl. destruct Hl as (Hid & _ & _ & Ho). destruct (reached ops Hr) as [H A].
  assert (NoDup ord) as Nd. { rewrite Ho. apply NoDup_fst_map_to_list. }
  assert (no_member (aexec ops a_init) id) as Hf.
  { intros ag Hag Hm. destruct (R_mem _ _ _ _ H Hag Hm) as [[x Ha] [y Hb]]. rewrite <- (ag_val _ _ A) in Ha, Hb.
    destruct (Hg (ag_kind ag) (ag_a ag) (ag_b ag)) as [K|K]; [|congruence|congruence]. rewrite (ag_grp _ _ A). apply elem_of_list_fmap. by exists ag. }
  assert (storages_with (after ops) id ord = holding ops id ord) as Eh.
  { unfold storages_with, holding. apply list_filter_iff. intros t. rewrite (ag_val _ _ A). unfold comp, storage_has.
    destruct (w_comps (after ops) !! t) as [st|] eqn:Et.
    - destruct (srel_Some_r _ _ _ _ _ (R_st _ _ H) Et) as (m & Hm & _ & Rt). rewrite Hm. cbn. rewrite (rep_exist _ _ _ id Rt). apply bool_decide_eq_true.
    - assert (a_comps (aexec ops a_init) !! t = None) as ->; [|split; [done|by intros [? ?]]].
      destruct (a_comps (aexec ops a_init) !! t) as [m|] eqn:Em; [|done]. destruct (srel_Some _ _ _ _ _ (R_st _ _ H) Em) as (st & Hst & _). congruence. }
  assert (forall ts, rules (ops ++ map (fun t => Detach t id) ts)) as Hrt.
  { intros ts. induction ts as [|t ts IH] using rev_ind; [cbn; by rewrite app_nil_r|]. rewrite map_app, app_assoc. cbn [map]. by apply rules_snoc. }
  set (P w := (exists k, rules (ops ++ map (fun t => Detach t id) (take k (holding ops id ord))) /\ w = after (ops ++ map (fun t => Detach t id) (take k (holding ops id ord)))) \/ w = after (ops ++ [RemoveEntity id ord])).
  rewrite livedb_app in Hs. destruct (livedb (map _ ops) born) as [s1|] eqn:E1; [|done]. apply do_all in E1 as ->.
  cbn [livedb act1b act1 lf_world lf_users app] in Hs. rewrite livedb_app in Hs.
  destruct (livedb (replicate n _) _) as [s2|] eqn:E2; [|done]. cbn [livedb] in Hs. destruct (act1b (Break half 0 h e cl) s2) as [s3|] eqn:E3; [|done].
  injection Hs as <-. eapply (lone_break P); [|exact E3]. eapply lone_moves; [|exact E2].
  assert (exec ops w_new = after ops) as -> by done. split; cbn [lf_world lf_users].
  - left. exists 0. cbn. by rewrite app_nil_r.
  - eexists. split; [done|]. cbn [th_prog compile all_holds rels]. apply walk_catch. cbn [p_call].
    apply walk_bind. eapply walk_mono; [|eapply (walk_remove P ops); [exact Hid|exact Nd|exact Hr|done|exact Hf| |]]; [done| |].
    + intros k. left. exists k. rewrite Eh. by split.
    + right. by rewrite after_snoc.
Qed.

(** ** Calls that are made or not *)
(** programs that change nothing *)
Fixpoint quiet {A} (p : prog V A) : Prop :=
  match p with
  | PAcq _ _ k | PRel _ _ k => quiet k
  | PAct lab f k => match lab with BKill _ _ => False | _ => True end /\ (forall w, (f w).2 = w) /\ forall y, quiet (k y)
  | _ => True
  end.
Lemma quiet_bind {A B} (p : prog V A) (k : A -> prog V B) : quiet p -> (forall a, quiet (k a)) -> quiet (pbind p k).
Proof.
  intros Hp Hk. induction p as [a| | | |l x p IH|l x p IH|C lab f kk IH]; cbn [quiet pbind] in *; try done; auto.
  destruct Hp as (H1 & H2 & H3). split; [done|]. split; [done|]. intros b. by apply IH.
Qed.
Lemma quiet_rels {A} h (k : prog V A) : quiet k -> quiet (rels h k).
Proof. induction h as [|[l x] h IH]; [done|]. exact IH. Qed.
Lemma quiet_look {A} (f : world V -> A) : quiet (look f).
Proof. done. Qed.
Lemma quiet_ask {A} (f : world V -> outcome A) : quiet (ask f).
Proof. done. Qed.
Lemma quiet_assert (c : bool) : quiet (passert c).
Proof. by destruct c. Qed.
Lemma quiet_walk {A} P (p : prog V A) w : quiet p -> P w -> walk P (fun _ w' => w' = w) p w.
Proof.
  intros Hq HP. induction p as [a| | | |l x p IH|l x p IH|C lab f kk IH]; cbn [quiet walk] in *; try done; auto.
  destruct Hq as (H1 & H2 & H3). split; [done|]. specialize (H2 w). destruct (f w) as [o w']. cbn in H2. subst w'. split; [done|]. destruct o; try done. by apply IH.
Qed.
Lemma walk_quiet {A B} P Q (p : prog V A) (k : A -> prog V B) w : quiet p -> P w -> (forall a, walk P Q (k a) w) -> walk P Q (pbind p k) w.
Proof. intros Hq HP H. apply walk_bind. eapply walk_mono; [|by apply quiet_walk]. intros a w' ->. apply H. Qed.
Lemma walk_end {A} P (p : prog V A) w : quiet p -> P w -> walk P whatever p w.
Proof. intros Hq HP. eapply walk_mono; [|by apply quiet_walk]. done. Qed.
Lemma walk_act {A} P lab (m : M (world V) A) w : match lab with BKill _ _ => False | _ => True end -> P (m w).2 -> walk P (fun _ w' => w' = (m w).2) (act lab m) w.
Proof. intros H1 H2. unfold act. cbn [walk]. split; [done|]. split; [done|]. by destruct (m w) as [[]]. Qed.
Lemma walk_once {A B} P lab (m : M (world V) A) (k : A -> prog V B) w : match lab with BKill _ _ => False | _ => True end ->
  P (m w).2 -> (forall a, quiet (k a)) -> walk P whatever (pbind (act lab m) k) w.
Proof. intros H1 H2 Hk. apply walk_bind. eapply walk_mono; [|by apply walk_act]. intros a w' ->. by apply walk_end. Qed.

Lemma quiet_find k a a' i n : quiet (p_find_group k a a' i n).
Proof.
  revert i. induction n as [|n IH]; intros i; [done|]. cbn [p_find_group]. apply quiet_bind; [done|intros _]. apply quiet_bind; [apply quiet_look|intros h].
  apply quiet_bind; [done|intros _]. by destruct (bool_decide _).
Qed.
Lemma quiet_open q : quiet (p_open q).
Proof.
  induction q; cbn [p_open].
  all: try (repeat (apply quiet_bind; [assumption|intros ?]); done).
  - unfold p_ref. apply quiet_bind; [apply quiet_look|intros b]. apply quiet_bind; [apply quiet_assert|intros _]. done.
  - unfold p_open_group. apply quiet_bind; [apply quiet_look|intros r]. apply quiet_bind; [apply quiet_assert|intros _].
    do 4 (apply quiet_bind; [done|intros _]). apply quiet_bind; [apply quiet_look|intros n]. apply quiet_bind; [apply quiet_find|intros f].
    apply quiet_bind; [apply quiet_assert|intros _]. apply quiet_bind; [apply quiet_find|intros f']. apply quiet_bind; [by destruct f'|intros gi].
    apply quiet_bind; [done|intros _]. destruct k; try done. all: apply quiet_bind; [apply quiet_ask|intros ?]; done.
Qed.
Lemma quiet_exist id : quiet (p_exist id).
Proof. done. Qed.
Lemma quiet_entity id : quiet (p_entity id).
Proof. unfold p_entity. apply quiet_bind; [done|intros _]. apply quiet_bind; [apply quiet_ask|intros b]. by destruct b. Qed.
Lemma quiet_groups t i n : quiet (p_groups t i n).
Proof.
  revert i. induction n as [|n IH]; intros i; [done|]. cbn [p_groups]. apply quiet_bind; [done|intros _]. apply quiet_bind; [apply quiet_look|intros h].
  apply quiet_bind; [done|intros _]. destruct h as [[[k a] a']|]; [|done]. destruct ((a =? t) || (a' =? t)); [|done].
  apply quiet_bind; [done|intros _]. apply quiet_bind; [done|]. done.
Qed.
Lemma walk_groups P t i n w : P w -> (forall j k a a', group_head (V := V) j w = Some (k, a, a') -> a <> t /\ a' <> t) ->
  walk P (fun gs w' => gs = [] /\ w' = w) (p_groups t i n) w.
Proof.
  intros HP Hn. revert i. induction n as [|n IH]; intros i; cbn [p_groups]; [done|].
  apply walk_bind. cbn [acq walk]. apply walk_bind. unfold look, act. cbn [walk fst snd]. split; [done|]. split; [done|]. cbn [rel pbind walk].
  destruct (group_head i w) as [[[k a] a']|] eqn:E; [|apply IH]. destruct (Hn i k a a' E) as [H1 H2].
  rewrite (proj2 (Nat.eqb_neq _ _) H1), (proj2 (Nat.eqb_neq _ _) H2). apply IH.
Qed.
Lemma fmap_snd {S A B} (f : A -> B) (m : M S A) x : (fmapM f m x).2 = (m x).2.
Proof. unfold fmapM, bind, ret. by destruct (m x) as [[]]. Qed.
Lemma heads_free t w j k a a' : PropOrder.free (V := V) t w -> group_head j w = Some (k, a, a') -> a <> t /\ a' <> t.
Proof.
  intros Hf. unfold group_head. destruct (w_groups w !! j) as [g|] eqn:Hg; [|done]. intros E. apply (Hf k a a').
  assert (g_static g ∈ PropGroup.groups_in w) as Hin by (apply elem_of_list_fmap_1; by eapply elem_of_list_lookup_2). destruct g; cbn in *; injection E as <- <- <-; exact Hin.
Qed.
Lemma walk_single P ops o w : single ops o -> P w -> P (step o w).2 ->
  (forall t, (forall k a a', (k, a, a') ∈ groups_of (seen ops) -> a <> t /\ a' <> t) -> PropOrder.free t w) ->
  walk P whatever (p_call o) w.
Proof.
  intros Hs HP HL Hf.
  assert (forall l x lab there, match lab with BKill _ _ => False | _ => True end -> walk P whatever (via_guard (V := V) l x lab there o) w) as Hvia.
  { intros l x lab there Hlab. unfold via_guard. apply walk_quiet; [apply quiet_look|done|]. intros [].
    - apply walk_quiet; [done|done|]. intros _. by apply walk_once.
    - eapply walk_mono; [|by apply walk_act]. done. }
  destruct o; cbn [p_call single] in *; try done; try (by apply Hvia).
  - unfold p_new_entity. apply walk_bind. apply walk_quiet; [done|done|]. intros _. apply walk_bind.
    assert (P (on_em em_allocate w).2) as HL'.
    { cbn [step] in HL. rewrite fmap_snd in HL. unfold create_entity, bind, get, lift in HL. destruct (on_em em_allocate w) as [[id| | |] w1]; try done. cbn in *.
      destruct (exist id w1) as [[]| | |]; exact HL. }
    eapply walk_mono; [|by apply walk_act]. cbn beta. intros id w' ->. apply walk_quiet; [done|done|]. intros _. apply walk_quiet; [apply quiet_entity|done|]. intros c.
    apply walk_quiet; [apply quiet_assert|done|]. intros _. by apply walk_end.
  - apply walk_quiet; [apply quiet_exist|done|]. done.
  - specialize (Hf _ Hs). cbn [step] in HL. rewrite fmap_snd in HL. unfold attach_component in HL. rewrite bind_get in HL.
    unfold p_entity. apply walk_bind. apply walk_quiet; [done|done|]. intros _. apply walk_bind. unfold ask, act. cbn [walk fst snd]. split; [done|]. split; [done|].
    destruct (exist id w) as [[]| | |]; [|done|done|done|done]. cbn [walk]. rewrite bind_lift, bind_assert_true in HL by done.
    unfold entity_attach in HL. rewrite bind_get in HL. apply walk_quiet; [apply quiet_assert|done|]. intros _.
    unfold p_handle_attach. apply walk_bind. apply walk_bind. unfold look, act. cbn [walk fst snd]. split; [done|]. split; [done|].
    destruct (has_registered t w); [|done]. cbn [passert pbind acq walk]. rewrite bind_assert_true in HL by done.
    unfold bind at 1 in HL. split; [done|]. destruct (storage_mut t (ss_add id v) w) as [o w1] eqn:E.
    assert (w_groups w1 = w_groups w) as Eg.
    { unfold storage_mut in E. destruct (w_comps w !! t) as [st|]; [|by injection E as _ <-]. destruct (st_ty st =? t); [|by injection E as _ <-].
      destruct (ss_add id v (st_set st)); by injection E as _ <-. }
    assert (PropOrder.free t w1) as Hf1. { unfold PropOrder.free, PropGroup.groups_in in *. by rewrite Eg. }
    destruct o as [[]| | |]; [|by split|by split|by split]. unfold bind, get in HL. rewrite (PropOrder.free_with t w1 Hf1) in HL. cbn in HL. split; [done|].
    cbn [walk rel pbind fst snd]. split; [done|]. split; [done|]. apply walk_bind. eapply walk_mono; [|apply walk_groups; [done|]].
    2:{ intros j k a a'. by apply heads_free. }
    intros gs w2 [-> ->]. by apply walk_end.
  - specialize (Hf _ Hs). cbn [step] in HL. rewrite fmap_snd in HL. unfold detach_component in HL. rewrite bind_get in HL.
    unfold p_entity. apply walk_bind. apply walk_quiet; [done|done|]. intros _. apply walk_bind. unfold ask, act. cbn [walk fst snd]. split; [done|]. split; [done|].
    destruct (exist id w) as [[]| | |]; [|done|done|done|done]. cbn [walk]. rewrite bind_lift, bind_assert_true in HL by done.
    unfold entity_detach in HL. rewrite bind_get in HL. apply walk_quiet; [apply quiet_assert|done|]. intros _.
    unfold p_handle_detach. apply walk_bind. apply walk_bind. unfold look, act. cbn [walk fst snd]. split; [done|]. split; [done|].
    destruct (has_registered t w); [|done]. rewrite bind_assert_true in HL by done. rewrite (PropOrder.free_with t w Hf) in HL. cbn [for_each] in HL. rewrite bind_retv in HL.
    cbn [passert walk pbind fst snd]. split; [done|]. split; [done|]. apply walk_bind. eapply walk_mono; [|apply walk_groups; [done|]].
    2:{ intros j k a a'. by apply heads_free. }
    intros gs w2 [-> ->]. cbn [p_each_group pfor pbind acq walk]. split; [done|]. split; [exact HL|]. destruct (storage_mut t (ss_remove id) w) as [[r| | |] w1]; done.
  - apply walk_quiet; [apply quiet_open|done|]. intros x. apply walk_quiet; [apply quiet_ask|done|]. intros l. apply walk_end; [|done]. by apply quiet_rels.
Qed.
(** Such a call, made by a user alone after calls that kept the rules, and
    broken off wherever it be, has been made entirely or not at all. *)
Theorem C58_all_or_nothing ops o n half h e cl s : rules ops -> single ops o ->
  livedb (map (fun o => BAct (Do o)) ops ++ BAct (Enter (Call o (fun _ => Done))) :: replicate n (BAct (Move 0)) ++ [Break half 0 h e cl]) born = Some s ->
  lf_world s = after ops \/ lf_world s = after (ops ++ [o]).
Proof.
  intros Hr Hsg Hs. destruct (reached ops Hr) as [H A]. set (P w := w = after ops \/ w = after (ops ++ [o])).
  rewrite livedb_app in Hs. destruct (livedb (map _ ops) born) as [s1|] eqn:E1; [|done]. apply do_all in E1 as ->.
  cbn [livedb act1b act1 lf_world lf_users app] in Hs. rewrite livedb_app in Hs.
  destruct (livedb (replicate n _) _) as [s2|] eqn:E2; [|done]. cbn [livedb] in Hs. destruct (act1b (Break half 0 h e cl) s2) as [s3|] eqn:E3; [|done].
  injection Hs as <-. eapply (lone_break P); [|exact E3]. eapply lone_moves; [|exact E2].
  assert (exec ops w_new = after ops) as -> by done. split; cbn [lf_world lf_users]; [by left|].
  eexists. split; [done|]. cbn [th_prog compile all_holds rels]. apply walk_catch.
  apply (walk_single P ops); [done|by left|right; by rewrite after_snoc|].
  intros t Ht k a a' Hin. apply (Ht k a a'). rewrite (ag_grp _ _ A). unfold PropGroup.groups_in in Hin. apply elem_of_list_fmap in Hin as (g & Eg & Hg).
  apply elem_of_list_lookup in Hg as [j Hg]. destruct (Forall2_lookup_l _ _ _ _ _ (R_gr _ _ H) Hg) as (ag & Hag & Hok).
  apply elem_of_list_fmap. exists ag. split; [|by eapply elem_of_list_lookup_2]. rewrite Eg. pose proof (gok_stat _ _ _ Hok) as K.
  destruct g; cbn in K |- *; destruct K as (K1 & K2 & K3); unfold gkey; by rewrite K1, K2, K3.
Qed.
End breaks.

(** ** Concrete cases *)
Definition rm_ops : list (op nat) :=
  [Register 4; Register 1; Register 2; Register 3; CreateEntity; CreateEntity; Attach 1 1 11; Attach 2 1 12; Attach 3 1 13; MakeGroup KFull 1 4].
Definition rm_life (o : op nat) (n : nat) (h : list (lock * bool)) : list (baction nat) :=
  map (fun o => BAct (Do o)) rm_ops ++ BAct (Enter (Call o (fun _ => Done))) :: replicate n (BAct (Move 0)) ++ [Break false 0 h [] Done].
(** The removal of entity 1, of three components, is broken off when two of
    them are removed. *)
Example C58_remove_case : rules (rm_ops ++ [RemoveEntity 1 [1; 3; 2; 4]]) /\
  (forall k a a', (k, a, a') ∈ groups_of (seen rm_ops) -> value_of (seen rm_ops) a 1 = None \/ value_of (seen rm_ops) a' 1 = None) /\
  holding rm_ops 1 [1; 3; 2; 4] = [1; 3; 2] /\
  let bs := rm_life (RemoveEntity 1 [1; 3; 2; 4]) 33 [(LStore 2, true)] in
  livedb bs born = Some (bk_at bs) /\
  tells (lf_world (bk_at bs)) (ReadComp 1 1) = Ret (OVal None) /\ tells (lf_world (bk_at bs)) (ReadComp 3 1) = Ret (OVal None) /\
  tells (lf_world (bk_at bs)) (ReadComp 2 1) = Ret (OVal (Some 12)) /\ tells (lf_world (bk_at bs)) (Exist 1) = Ret (OBool true).
Proof.
  split; [check_rules|]. split.
  { assert (groups_of (seen rm_ops) = [(KFull, 1, 4)]) as -> by (vm_compute; reflexivity). intros k a a' H%elem_of_list_singleton. injection H as _ -> ->. right. vm_compute. reflexivity. }
  split; [vm_compute; reflexivity|]. split; [apply bk_at_ok; vm_compute; reflexivity|]. repeat split; vm_compute; reflexivity.
Qed.
(** Attaching a type that is in no group, broken off when the value is in
    place: it has been made entirely. *)
Example C58_single_case : rules rm_ops /\ single rm_ops (Attach 3 2 23) /\
  let bs n h := rm_life (Attach 3 2 23) n h in
  livedb (bs 4 [(LStore 3, true); (LMan, false)]) born = Some (bk_at (bs 4 [(LStore 3, true); (LMan, false)])) /\
  tells (lf_world (bk_at (bs 4 [(LStore 3, true); (LMan, false)]))) (ReadComp 3 2) = Ret (OVal None) /\
  livedb (bs 5 [(LStore 3, true); (LMan, false)]) born = Some (bk_at (bs 5 [(LStore 3, true); (LMan, false)])) /\
  tells (lf_world (bk_at (bs 5 [(LStore 3, true); (LMan, false)]))) (ReadComp 3 2) = Ret (OVal (Some 23)).
Proof.
  split; [check_rules|]. split.
  { cbn [single]. assert (groups_of (seen rm_ops) = [(KFull, 1, 4)]) as -> by (vm_compute; reflexivity). intros k a a' H%elem_of_list_singleton. by injection H as _ -> ->. }
  split; [apply bk_at_ok; vm_compute; reflexivity|]. split; [vm_compute; reflexivity|]. split; [apply bk_at_ok; vm_compute; reflexivity|]. vm_compute. reflexivity.
Qed.

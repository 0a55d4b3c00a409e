(** C54: the whole life of a world, shared and exclusive by turns. *)
From stdpp Require Import prelude list gmap.
From Verif Require Import PropConc SpecValue SpecValue2 ProofValue ProofValue3 PropValue PropValue2.
From Verif Require Import Base Api ModelSparse ModelEntity ModelGroup ModelWorld ModelQuery ModelStep ModelConc SpecConc ModelLife
  Spec History Rules ProofSparse ProofEntity ProofGroup ProofWorld ProofMain ProofHistory ProofWf ProofTerm ProofConc ProofConc2 ProofConc3 ProofConc4 ProofConc5
  ProofConc6 ProofConc7 ProofConc8 ProofConc9 ProofConc10 ProofConc11
  ProofQueryMut ProofQuery3 ProofQuery4 SpecLoose ProofLoose ProofLoose2 PropEntity PropWorld PropQuery PropSafe PropLoose SpecLife.

Section life.
Context {V : Type}.
Implicit Types (s : life V) (acts : list (action V)) (w : world V) (c : conf V).

Lemma lived_app a1 a2 s : lived (V := V) (a1 ++ a2) s = match lived a1 s with Some s' => lived a2 s' | None => None end.
Proof. revert s. induction a1 as [|a a1 IH]; intros s; cbn [app lived]; [done|]. destruct (act1 a s); [apply IH|done]. Qed.
Lemma lived_snoc a1 a s s' : lived (V := V) (a1 ++ [a]) s = Some s' -> exists s1, lived a1 s = Some s1 /\ act1 a s1 = Some s'.
Proof. rewrite lived_app. destruct (lived a1 s) as [s1|]; [|done]. cbn [lived]. intros H. exists s1. split; [done|]. by destruct (act1 a s1). Qed.
Lemma orderly_snoc acts a : orderly (V := V) (acts ++ [a]) -> orderly acts /\ forall s, lived acts born = Some s -> may s a.
Proof.
  intros H. split; [|intros s Hs; by apply (H acts a [] s)]. intros pre b post s ->. apply (H pre b (post ++ [a])). by rewrite <- app_assoc.
Qed.

(** ** Shared phases are runs of ModelConc.v *)
Lemma others_snoc i (ths : list (thread V)) p : i < length ths -> holds_of_others i (ths ++ [Th [] p]) = holds_of_others i ths.
Proof.
  unfold holds_of_others. revert i. induction ths as [|th ths IH]; intros i Hi; cbn [length] in Hi; [lia|].
  destruct i as [|i]; cbn -[concat]; unfold delete in *.
  - cbn [list_delete]. rewrite map_app, concat_app. cbn. by rewrite app_nil_r.
  - cbn [list_delete map concat]. f_equal. apply IH. lia.
Qed.
Lemma cstep_snoc i w ths c' p : cstep i (Cf w ths) = Some c' -> cstep i (Cf (V := V) w (ths ++ [Th [] p])) = Some (Cf (cf_world c') (cf_threads c' ++ [Th [] p])).
Proof.
  unfold cstep. cbn [cf_threads cf_world]. destruct (ths !! i) as [th|] eqn:E; [|done]. pose proof (lookup_lt_Some _ _ _ E) as Hl.
  rewrite (lookup_app_l_Some _ _ _ _ E), others_snoc by done. destruct (tstep _ th w) as [[th' w']|]; [|done]. intros [= <-]. cbn. by rewrite insert_app_l.
Qed.
Lemma run_more sched c c' p : run sched c = Some c' ->
  run sched (Cf (V := V) (cf_world c) (cf_threads c ++ [Th [] p])) = Some (Cf (cf_world c') (cf_threads c' ++ [Th [] p])).
Proof.
  revert c. induction sched as [|i sched IH]; intros c; cbn [run]; [by intros [= <-]|].
  destruct (cstep i c) as [c1|] eqn:E; [|done]. intros H. destruct c as [w ths]. cbn [cf_world cf_threads]. rewrite (cstep_snoc _ _ _ _ p E). by apply (IH c1).
Qed.

Lemma entered_app (a1 a2 : list (action V)) : entered (a1 ++ a2) = entered a1 ++ entered a2.
Proof. induction a1 as [|[] a1 IH]; cbn; [done|by f_equal|done|done]. Qed.
Lemma moved_app (a1 a2 : list (action V)) : moved (a1 ++ a2) = moved a1 ++ moved a2.
Proof. induction a1 as [|[] a1 IH]; cbn; [done|done|by f_equal|done]. Qed.

(** At every moment of a world's life: since the last exclusive call (or the
    beginning) its users have done what threads do that share the world this
    call left; so what ModelConc.v says of threads (C36-C38, C45, C46, C49,
    C52) holds of them. *)
Theorem C54_phases acts s : lived acts born = Some s ->
  exists acts0 acts1 s0, acts = acts0 ++ acts1 /\ lived acts0 born = Some s0 /\
    (acts0 = [] \/ exists acts' o, acts0 = acts' ++ [Do o]) /\ lf_users s0 = [] /\
    Forall (fun a => exclusive a = false) acts1 /\
    run (moved acts1) (start (lf_world s0) (entered acts1)) = Some (conf_of s).
Proof.
  revert s. induction acts as [|a acts IH] using rev_ind; intros s H.
  { injection H as <-. exists [], [], born. split_and!; try done. by left. }
  apply lived_snoc in H as (s1 & H1 & Ha). destruct (IH s1 H1) as (acts0 & acts1 & s0 & -> & H0 & Hd & Hu & He & Hr).
  destruct a as [cl|i|o]; cbn [act1] in Ha.
  - injection Ha as <-. exists acts0, (acts1 ++ [Enter cl]), s0. split; [by rewrite app_assoc|]. do 3 (split; [done|]).
    split; [apply Forall_app; split; [done|by constructor]|]. rewrite moved_app, entered_app. cbn [moved entered]. rewrite app_nil_r.
    unfold start. rewrite map_app. cbn [map]. exact (run_more _ _ _ (compile [] cl) Hr).
  - destruct (cstep i (conf_of s1)) as [c'|] eqn:Ec; [|done]. injection Ha as <-. exists acts0, (acts1 ++ [Move i]), s0.
    split; [by rewrite app_assoc|]. do 3 (split; [done|]). split; [apply Forall_app; split; [done|by constructor]|].
    rewrite moved_app, entered_app. cbn [moved entered]. rewrite app_nil_r. rewrite (run_snoc _ _ _ _ _ Hr Ec). unfold conf_of. cbn. by destruct c'.
  - exists ((acts0 ++ acts1) ++ [Do o]), [], s. split; [by rewrite app_nil_r|].
    assert (lf_users s = []) as Hs. { destruct (forallb over (lf_users s1)); [|done]. destruct (step o (lf_world s1)) as [[]]; try done; by injection Ha as <-. }
    split; [by rewrite lived_app, H1; cbn [lived act1]; rewrite Ha|]. split; [right; by eexists _, _|]. split; [done|]. split; [done|].
    cbn. unfold start, conf_of. by rewrite Hs.
Qed.
(** A user whose program is over has no guard left: when an exclusive call
    can be made no lock of the world is held. *)
Theorem C54_nothing_left acts s th : lived acts born = Some s -> th ∈ lf_users s -> over th = true -> th_holds th = [].
Proof.
  intros H Hin Ho. destruct (C54_phases acts s H) as (acts0 & acts1 & s0 & _ & _ & _ & _ & _ & Hr).
  assert (reaches (lf_world s0) (entered acts1) (conf_of s)) as HR by (by eexists). apply reach_any in HR.
  apply elem_of_list_lookup in Hin as [i Hi]. pose proof (ci_thr _ _ _ _ HR i th Hi) as Hw. unfold over in Ho. destruct (th_prog th); try done.
  cbn in Hw. destruct Hw as (m & Hm & ->). by apply Permutation_nil in Hm.
Qed.

(** An exclusive call is made exactly when every user is done and has no guard
    left (and the call returns or panics). *)
Theorem C54_alone acts o s : lived acts born = Some s ->
  (exists s', act1 (Do o) s = Some s') <->
  (forall th, th ∈ lf_users s -> (exists r, th_prog th = PRet r) /\ th_holds th = []) /\
  (tells (lf_world s) o = Panic \/ exists r, tells (lf_world s) o = Ret r).
Proof.
  intros H. unfold tells. cbn [act1]. split.
  - intros [s' Hs]. destruct (forallb over (lf_users s)) eqn:E; [|done]. rewrite forallb_forall in E. split.
    + intros th Hin. pose proof (E th (proj1 (elem_of_list_In _ _) Hin)) as Ho. split; [|by eapply C54_nothing_left].
      unfold over in Ho. destruct (th_prog th); try discriminate Ho. by eexists.
    + destruct (step o (lf_world s)) as [[r| | |] w']; try discriminate Hs; cbn [fst]; [right; by exists r|by left].
  - intros [Ha Hr]. assert (forallb over (lf_users s) = true) as ->.
    { apply forallb_forall. intros th Hin. apply elem_of_list_In in Hin. destruct (Ha th Hin) as [[r Hp] _]. unfold over. by rewrite Hp. }
    destruct (step o (lf_world s)) as [[r| | |] w']; cbn [fst] in Hr; try (by eexists); destruct Hr as [Hr|[? Hr]]; discriminate Hr.
Qed.

(** ** The invariant *)
Definition zero w : Prop := forall t, wvalue w t 0 = None.
Lemma may_tame w o : good w -> may_call w o -> tame w o.
Proof.
  intros G H. destruct o; try done; cbn [may_call tame] in *. intros id st Hid Hst. destruct H as [_ H]. specialize (H id Hid).
  rewrite shows_wvalue in H by done. unfold wvalue in H. rewrite Hst in H. destruct (gd_st _ G t st Hst) as [_ W].
  destruct (ss_exist (st_set st) id) eqn:E; [|done]. apply (exist_lookup _ id W) in E. rewrite H in E. by destruct E.
Qed.
Lemma may_enum w o : may_call w o -> forall i ord, o = RemoveEntity i ord -> forall u, has_registered u w = true -> u ∈ ord.
Proof. intros H i ord -> u Hu. apply H. unfold tells. cbn. by rewrite Hu. Qed.
Lemma do_effect w o t id : good w -> zero w -> may_call w o -> effect_on (tells w) o t id (wvalue w t id) (wvalue (step o w).2 t id).
Proof. intros G H0 H. apply (step_values w o t id G (may_tame _ _ G H) H0). by apply may_enum. Qed.
Lemma do_zero w o : good w -> zero w -> may_call w o -> zero (step o w).2.
Proof.
  intros G H0 H t. pose proof (do_effect w o t 0 G H0 H) as K'.
  rewrite H0 in K'. revert K'. generalize (wvalue (step o w).2 t 0). intros new. unfold effect_on, tells.
  destruct o; try done; cbn [may_call] in H.
  + match goal with |- context [match ?e with Ret _ => _ | _ => _ end] => destruct e end; [destruct (decide _)|..]; try done; intros [?|(_ & _ & ?)]; done.
  + rewrite decide_False by (intros (_ & ? & _); lia). done.
  + match goal with |- match ?e with _ => _ end -> _ => destruct e end; try done. by destruct (decide _).
  + match goal with |- match ?e with _ => _ end -> _ => destruct e end; try done. rewrite decide_False by (intros (_ & ?); lia). done.
  + match goal with |- match ?e with _ => _ end -> _ => destruct e as [[]| | |] end; try done. destruct (decide _) as [[_ ?]|]; [lia|]. by destruct b.
  + match goal with |- match ?e with _ => _ end -> _ => destruct e as [[]| | |] end; try done. destruct (decide _) as [[_ ?]|]; [lia|]. by destruct b.
  + match goal with |- match ?e with _ => _ end -> _ => destruct e as [[]| | |] end; try done. destruct b; [|done].
    rewrite decide_False; [done|]. unfold at_place. cbn [step]. rewrite bind_get, fmapM_fst. unfold lift. cbn [fst]. intros [_ Hp].
    destruct (w_comps w !! t0) as [st|] eqn:E.
    * destruct (place_entities _ t0 st G H0 E) as (l & El & El'). rewrite El, El' in Hp. apply (zero_entities _ G H0 t0 st E). by eapply elem_of_list_lookup_2.
    * unfold run_query in Hp. cbn [query_open] in Hp. unfold has_registered in Hp. rewrite bind_assert_false in Hp; [done|]. rewrite E. done.
  + match goal with |- match ?e with _ => _ end -> _ => destruct e as [[]| | |] end; try done. by destruct (decide _).
Qed.
Lemma may_fresh i c : good (cf_world c) -> may_step i c -> step_fresh i c.
Proof.
  intros G H th lab Hi Hl. unfold may_step, did in H. rewrite Hi, Hl in H.
  destruct lab as [| |n|id0|t0 id0 v|t0 lo hi vs|t0 id0|t0 id0|j id0|j id0|j id0| |o]; try done.
  intros id1 st Hid Hst. destruct H as [_ H]. specialize (H id1 Hid). rewrite (shows_wvalue _ t0 id1 G) in H.
  unfold wvalue in H. rewrite Hst in H. destruct (ss_exist (st_set st) id1) eqn:E; [|done].
  destruct (gd_st _ G t0 st Hst) as [_ Wf]. apply (exist_lookup _ id1 Wf) in E. rewrite H in E. by destruct E.
Qed.
Lemma move_effect w0 i c c' t id : cinv w0 nolt True c -> may_step i c -> cstep i c = Some c' ->
  match did i c with
  | Some lab => work_on (cf_world c) lab t id (wvalue (cf_world c) t id) (wvalue (cf_world c') t id)
  | None => wvalue (cf_world c') t id = wvalue (cf_world c) t id
  end.
Proof.
  intros HI Hm Hc. pose proof (ci_good _ _ _ c HI I) as G0.
  assert (cinv w0 nolt True c') as HI'. { eapply cstep_cinv; [exact HI| |exact Hc]. intros _. by apply may_fresh. }
  pose proof (ci_good _ _ _ c' HI' I) as G1.
  destruct (did i c) as [lab|] eqn:Ed; [|by rewrite (cstep_quiet i c c' Ed Hc)].
  destruct (cstep_piece _ _ _ i c c' lab HI Ed Hc) as (th & Hi & Hmv & _).
  eapply moves_values; [done|done| |exact Hmv].
  pose proof (may_fresh i c G0 Hm th) as K. unfold did in Ed. rewrite Hi in Ed. exact (K lab Hi Ed).
Qed.
Lemma move_zero w0 i c c' : cinv w0 nolt True c -> zero (cf_world c) -> may_step i c -> cstep i c = Some c' -> zero (cf_world c').
Proof.
  intros HI H0 Hm Hc t. pose proof (move_effect w0 i c c' t 0 HI Hm Hc) as K. rewrite H0 in K. unfold may_step in Hm.
  destruct (did i c) as [lab|]; [|done]. revert K. generalize (wvalue (cf_world c') t 0). intros new.
  destruct lab as [| |n|id0|t0 id0 v|t0 lo hi vs|t0 id0|t0 id0|j id0|j id0|j id0| |o]; cbn [work_on]; try done.
  - rewrite decide_False by (intros (_ & ? & _); lia). done.
  - rewrite decide_False by (intros (_ & ? & _); lia). done.
  - by destruct (decide _).
  - by destruct (decide _).
  - intros [?|(_ & _ & ?)]; done.
  - intros H. destruct new; [|done]. destruct (proj1 H) as [? ?]; [by eexists|done].
  - destruct o; try done; try (intros H; destruct new; [|done]; destruct (proj1 H) as [? ?]; [by eexists|done]); by destruct (decide _).
Qed.
Record linv s : Prop := { li_zero : zero (lf_world s); li_c : exists w0, cinv w0 nolt True (conf_of s) }.
Lemma li_good s : linv s -> good (lf_world s).
Proof. intros [_ [w0 H]]. exact (ci_good _ _ _ _ H I). Qed.
Lemma act_inv s a s' : linv s -> may s a -> act1 a s = Some s' -> linv s'.
Proof.
  intros L H E. pose proof (li_good s L) as G. destruct L as [H0 [w0 HI]]. destruct a as [cl|i|o]; cbn [may act1] in *.
  - injection E as <-. split; [done|]. exists w0. split; [exact (ci_shape _ _ _ _ HI)|exact (ci_good _ _ _ _ HI)| |].
    + intros i th. unfold conf_of. cbn [cf_threads lf_users]. intros Hi. apply lookup_app_Some in Hi as [Hi|[_ Hi]].
      * exact (ci_thr _ _ _ _ HI i th Hi).
      * apply list_lookup_singleton_Some in Hi as [_ <-]. cbn [th_holds th_prog]. apply (wp_compile w0 nolt True cl []); [done|].
        by apply any_client.
    + pose proof (ci_excl _ _ _ _ HI) as K. unfold all_locks, conf_of in *. cbn [cf_threads lf_users] in *. rewrite map_app, concat_app. cbn.
      by rewrite app_nil_r.
  - destruct (cstep i (conf_of s)) as [c'|] eqn:Ec; [|done]. injection E as <-. cbn [lf_world].
    split; [exact (move_zero w0 i _ _ HI H0 H Ec)|]. exists w0. unfold conf_of. cbn [lf_world lf_users]. destruct c' as [w' ths].
    eapply cstep_cinv; [exact HI| |exact Ec]. intros _. by apply may_fresh.
  - destruct (forallb over (lf_users s)); [|done].
    assert (s' = Life (step o (lf_world s)).2 []) as ->. { destruct (step o (lf_world s)) as [[]]; try done; by injection E as <-. }
    split; [by apply do_zero|]. exists (step o (lf_world s)).2. unfold conf_of. cbn [lf_world lf_users].
    apply (start_cinv _ nolt True []); [|done]. intros _. apply good_step; [done|]. by apply may_tame.
Qed.
Lemma life_inv acts s : orderly acts -> lived acts born = Some s -> linv s.
Proof.
  revert s. induction acts as [|a acts IH] using rev_ind; intros s Ho H.
  - injection H as <-. split; [done|]. exists w_new. apply (start_cinv _ nolt True []); [|done]. intros _. apply good_new.
  - apply orderly_snoc in Ho as [Ho Ha]. apply lived_snoc in H as (s1 & H1 & E). eapply act_inv; [by apply IH|by apply Ha|done].
Qed.

(** ** Nothing is undefined behaviour

    No user ever runs into undefined behaviour, and no exclusive call that
    could be made is undefined behaviour. *)
Theorem C54_safe acts s : orderly acts -> lived acts born = Some s ->
  (forall i, ~ crashed (conf_of s) i) /\ (forall o, may s (Do o) -> tells (lf_world s) o <> UB).
Proof.
  intros Ho H. pose proof (life_inv acts s Ho H) as L. pose proof (li_good s L) as G. split.
  - intros i (th & Hi & Hu). destruct L as [_ [w0 HI]]. pose proof (ci_thr _ _ _ _ HI i th Hi) as Hw. rewrite Hu in Hw. by apply Hw.
  - intros o Hm. apply good_step; [done|]. by apply may_tame.
Qed.

(** ** Each action does to the components what it is meant to do *)
Theorem C54_values acts a s s' t id : orderly (acts ++ [a]) -> lived acts born = Some s -> act1 a s = Some s' ->
  action_on s a t id (SpecConc.shows (lf_world s) t id) (SpecConc.shows (lf_world s') t id).
Proof.
  intros Ho H E. apply orderly_snoc in Ho as [Ho Ha]. pose proof (life_inv acts s Ho H) as L. specialize (Ha s H).
  pose proof (act_inv s a s' L Ha E) as L'. rewrite (shows_wvalue _ t id (li_good _ L)), (shows_wvalue _ t id (li_good _ L')).
  destruct a as [cl|i|o]; cbn [may act1 action_on] in *.
  - by injection E as <-.
  - destruct (cstep i (conf_of s)) as [c'|] eqn:Ec; [|done]. injection E as <-. destruct L as [_ [w0 HI]].
    exact (move_effect w0 i _ _ t id HI Ha Ec).
  - destruct (forallb over (lf_users s)); [|done].
    assert (s' = Life (step o (lf_world s)).2 []) as ->. { destruct (step o (lf_world s)) as [[]]; try done; by injection E as <-. }
    apply do_effect; [exact (li_good _ L)|apply L|done].
Qed.

(** ** The world always looks like one a single thread left *)
Lemma components_csame w w' t : csame w w' ->
  (components_read t w = Ret None /\ components_read t w' = Ret None) \/
  (components_read t w = UB /\ components_read t w' = UB) \/
  exists x x', components_read t w = Ret (Some x) /\ components_read t w' = Ret (Some x') /\ lsame x x'.
Proof.
  intros E. specialize (E t). unfold components_read. destruct (w_comps w !! t) as [st|], (w_comps w' !! t) as [st'|]; try done; [|by left].
  destruct E as [-> Hs]. destruct (st_ty st' =? t); right; [right|by left]. by eexists _, _.
Qed.
Lemma via_csame {A} t (f : sset V -> outcome A) w w' : csame w w' -> (forall x x', lsame x x' -> f x = f x') -> (via_storage t f w).1 = (via_storage t f w').1.
Proof.
  intros E Hf. unfold via_storage. rewrite !bind_get. unfold bind at 1 3, lift at 1 3.
  destruct (components_csame w w' t E) as [[-> ->]|[[-> ->]|(x & x' & -> & -> & Hs)]]; try done.
  unfold bind, lift. rewrite (Hf _ _ Hs). by destruct (f x').
Qed.
Lemma lsame_exist (x x' : sset V) e : lsame x x' -> ss_exist x e = ss_exist x' e.
Proof.
  intros (_ & _ & H). specialize (H e). unfold ss_get_index in H. unfold ss_exist.
  destruct (indices x !! e) as [[k|]|], (indices x' !! e) as [[k'|]|]; done.
Qed.
Lemma lsame_get (x x' : sset V) e : lsame x x' -> ss_get x e = ss_get x' e.
Proof.
  intros (_ & Hd & H). specialize (H e). unfold ss_get_index in H. unfold ss_get. rewrite Hd.
  destruct (indices x !! e) as [[k|]|], (indices x' !! e) as [[k'|]|]; try done. by injection H as ->.
Qed.
Lemma read_csame w w' t id : csame w w' -> (entity_component_read t id w).1 = (entity_component_read t id w').1.
Proof.
  intros E. unfold entity_component_read. rewrite !bind_get. unfold bind at 1 3, lift at 1 3.
  destruct (components_csame w w' t E) as [[-> ->]|[[-> ->]|(x & x' & -> & -> & Hs)]]; try done.
  rewrite (lsame_exist _ _ id Hs). destruct (ss_exist x' id) eqn:Ex; [|done]. destruct Hs as (_ & Hd & Hi). specialize (Hi id). unfold ss_get_index in Hi.
  unfold bind, lift, ss_get_unchecked_loc, ss_exist in *. rewrite Hd.
  destruct (indices x !! id) as [[k|]|], (indices x' !! id) as [[k'|]|]; try done. injection Hi as ->.
  destruct (k' - 1 <? length (sdata x')); [|done]. by destruct (sdata x' !! (k' - 1)).
Qed.
Lemma looks_csame w w' o : csame w w' -> looks o = true -> tells w o = tells w' o.
Proof.
  intros E Hl. unfold tells. destruct o; try discriminate Hl; cbn [step]; rewrite ?fmapM_fst.
  - cbn. by rewrite (csame_reg w w' t E).
  - by rewrite (read_csame w w' t id E).
  - rewrite (via_csame t _ w w' E); [done|]. intros x x' (He & _). unfold ss_len. by rewrite He.
  - rewrite (via_csame t _ w w' E); [done|]. intros x x' (He & _). unfold ss_is_empty. by rewrite He.
  - rewrite (via_csame t _ w w' E); [done|]. intros x x' Hs. by rewrite (lsame_exist _ _ id Hs).
  - rewrite (via_csame t _ w w' E); [done|]. intros x x' Hs. by apply lsame_get.
  - rewrite (via_csame t _ w w' E); [done|]. intros x x' (_ & Hd & _). by rewrite Hd.
  - rewrite !bind_get, !fmapM_fst. unfold lift. cbn [fst]. by rewrite (run_query_csame _ _ q Hl E).
Qed.
(** There is a history of single calls, keeping to the rules of use, after
    which every call that looks at components answers as it does now: so all
    that C03, C21-C24, C53 say of counts, data and plain queries holds at
    every moment of the life of a world. *)
Theorem C54_like acts s : orderly acts -> lived acts born = Some s ->
  exists ops, rules ops /\ forall o, looks o = true -> tells (lf_world s) o = answer ops o.
Proof.
  intros Ho H. pose proof (life_inv acts s Ho H) as L. pose proof (li_good s L) as G.
  destruct (same_components _ G (zero_entities _ G (li_zero _ L))) as (ops & Hh & Hs).
  exists ops. split; [exact (harmless_rules ops a_init Hh)|]. intros o Hl. exact (looks_csame _ _ o Hs Hl).
Qed.

(** ** What exclusive calls fix *)
Lemma exclusives_snoc acts a s0 s1 s' : lived acts s0 = Some s1 -> act1 a s1 = Some s' ->
  exclusives (acts ++ [a]) s0 = exclusives acts s0 ++ match a with Do o => [(o, tells (lf_world s1) o)] | _ => [] end.
Proof.
  revert s0. induction acts as [|b acts IH]; intros s0 H E; cbn [lived exclusives app] in *.
  - injection H as ->. rewrite E. by rewrite app_nil_r.
  - destruct (act1 b s0) as [s2|]; [|done]. rewrite (IH s2 H E). by rewrite app_assoc.
Qed.
Lemma move_shape acts s i c' : lived acts born = Some s -> cstep i (conf_of s) = Some c' -> same_shape (lf_world s) (cf_world c').
Proof.
  intros H E. destruct (C54_phases acts s H) as (acts0 & acts1 & s0 & _ & _ & _ & _ & _ & Hr).
  assert (reaches (lf_world s0) (entered acts1) (conf_of s)) as HR by (by eexists).
  assert (reaches (lf_world s0) (entered acts1) c') as HR'. { exists (moved acts1 ++ [i]). exact (run_snoc _ _ _ _ _ Hr E). }
  apply reach_any in HR, HR'. pose proof (ci_shape _ _ _ _ HR) as [A1 A2 A3]. pose proof (ci_shape _ _ _ _ HR') as [B1 B2 B3].
  cbn in A1, A2, A3. split; intros x; [by rewrite <- A1, B1|by rewrite <- A2, B2|by rewrite <- A3, B3].
Qed.
Lemma act_do o s s' : act1 (Do o) s = Some s' -> s' = Life (step o (lf_world s)).2 [] /\ forallb over (lf_users s) = true.
Proof.
  cbn [act1]. destruct (forallb over (lf_users s)); [|done]. destruct (step o (lf_world s)) as [[]]; try done; by intros [= <-].
Qed.
Record fixed w (h : history V) : Prop := {
  fx_reg : forall t, is_Some (w_comps w !! t) <-> t ∈ types_of h;
  fx_ty : forall t st, w_comps w !! t = Some st -> st_ty st = t;
  fx_res : forall r, rv_ty <$> w_res w !! r = (fun _ => r) <$> res_of h r;
}.
Lemma fixed_shape w w' h : fixed w h -> same_shape w w' -> fixed w' h.
Proof.
  intros [F1 F2 F3] [S1 _ S3]. split.
  - intros t. rewrite <- F1. specialize (S1 t). destruct (w_comps w !! t), (w_comps w' !! t); try done; split; intros; by eexists.
  - intros t st Hst. specialize (S1 t). rewrite Hst in S1. destruct (w_comps w !! t) as [st0|] eqn:E; [|done]. injection S1 as S1. rewrite <- S1. by apply F2.
  - intros r. by rewrite <- S3.
Qed.
Lemma fixed_keeps w w' h ev : fixed w h -> (forall t, st_ty <$> w_comps w' !! t = st_ty <$> w_comps w !! t) ->
  (forall r, rv_ty <$> w_res w' !! r = rv_ty <$> w_res w !! r) ->
  types_of (h ++ [ev]) = types_of h -> (forall x, (fun _ => x) <$> res_of (h ++ [ev]) x = (fun _ => x) <$> res_of h x) -> fixed w' (h ++ [ev]).
Proof.
  intros F K1 K3 Ht Hr. split.
  - intros t. rewrite Ht, <- (fx_reg _ _ F). specialize (K1 t). destruct (w_comps w !! t), (w_comps w' !! t); try done; split; intros; by eexists.
  - intros t st Hst. specialize (K1 t). rewrite Hst in K1. destruct (w_comps w !! t) as [st0|] eqn:E; [|done]. injection K1 as K1. rewrite K1. by apply (fx_ty _ _ F).
  - intros r. by rewrite K3, Hr, (fx_res _ _ F).
Qed.
Lemma fixed_step w h o : fixed w h -> fixed (step o w).2 (h ++ [(o, (step o w).1)]).
Proof.
  intros F. destruct (special o) eqn:Es.
  2:{ destruct (pres_step o Es w) as [K1 _ K3]. apply (fixed_keeps w); [done|done|by rewrite K3|rewrite types_snoc; by destruct o|].
      intros x. rewrite res_snoc. by destruct o. }
  destruct o; try done; cbn [step].
  - rewrite fmapM_snd, fmapM_fst, register_eq. destruct (has_registered t w) eqn:Hr.
    + apply (fixed_keeps w); try done; [by rewrite types_snoc|]. intros x. by rewrite res_snoc.
    + cbn [fst snd]. destruct F as [S1 S2 S3]. split.
      * intros u. rewrite types_snoc. simpl. rewrite elem_of_union, elem_of_singleton, <- S1.
        destruct (decide (u = t)) as [->|Hne]; [rewrite lookup_insert; split; eauto|].
        rewrite lookup_insert_ne by done. tauto.
      * intros u st. simpl. destruct (decide (u = t)) as [->|Hne].
        -- rewrite lookup_insert. by intros [= <-].
        -- rewrite lookup_insert_ne by done. apply S2.
      * intros x. rewrite res_snoc. simpl. apply S3.
  - destruct (make_group_keeps k a b w) as (gs & K1 & K2 & _). rewrite fmapM_snd, fmapM_fst.
    apply (fixed_keeps w); [done|done|by rewrite K1|by rewrite types_snoc|]. intros x. rewrite res_snoc. done.
  - simpl. destruct F as [S1 S2 S3]. split; simpl.
    + intros t. rewrite types_snoc. apply S1.
    + apply S2.
    + intros x. rewrite res_snoc. simpl. destruct (decide (r = x)) as [->|]; [by rewrite lookup_insert|].
      rewrite lookup_insert_ne by done. apply S3.
  - rewrite fmapM_snd, fmapM_fst. unfold resource_write, bind, get.
    destruct (w_res w !! r) as [x|] eqn:Er.
    2: { apply (fixed_keeps w); try done; [by rewrite types_snoc|]. intros y. rewrite res_snoc. done. }
    destruct (rv_ty x =? r) eqn:Ex.
    2: { apply (fixed_keeps w); try done; [by rewrite types_snoc|]. intros y. rewrite res_snoc. done. }
    apply (fixed_keeps w); try done; [|by rewrite types_snoc|].
    + intros y. cbn. destruct (decide (r = y)) as [<-|]; [by rewrite lookup_insert, Er|by rewrite lookup_insert_ne].
    + intros y. rewrite res_snoc. cbn. destruct (decide (r = y)) as [->|]; [|done].
      pose proof (fx_res _ _ F y) as K. rewrite Er in K. by destruct (res_of h y).
Qed.
Lemma life_fixed acts s : lived acts born = Some s -> fixed (lf_world s) (exclusives acts born).
Proof.
  revert s. induction acts as [|a acts IH] using rev_ind; intros s H.
  - injection H as <-. split; [|done|done]. intros t. cbn. split; [by intros [? ?]|set_solver].
  - apply lived_snoc in H as (s1 & H1 & E). rewrite (exclusives_snoc acts a born s1 s H1 E). specialize (IH s1 H1). destruct a as [cl|i|o].
    + rewrite app_nil_r. by injection E as <-.
    + rewrite app_nil_r. cbn [act1] in E. destruct (cstep i (conf_of s1)) as [c'|] eqn:Ec; [|done]. injection E as <-.
      eapply fixed_shape; [exact IH|]. exact (move_shape acts s1 i c' H1 Ec).
    + apply act_do in E as [-> _]. cbn [lf_world]. by apply fixed_step.
Qed.
(** Whatever the threads did in between, the registered types are those the
    exclusive calls registered, and the resources those they registered
    (whose values the threads may have changed). *)
Theorem C54_types acts s t : lived acts born = Some s ->
  tells (lf_world s) (HasRegistered t) = Ret (OBool true) <-> t ∈ types_of (exclusives acts born).
Proof.
  intros H. rewrite <- (fx_reg _ _ (life_fixed acts s H)). unfold tells. cbn. unfold has_registered. split.
  - intros [= K]. by apply bool_decide_eq_true in K.
  - intros K. by rewrite bool_decide_true.
Qed.
Theorem C54_resources acts s r : lived acts born = Some s ->
  match res_of (exclusives acts born) r with
  | Some _ => exists v, tells (lf_world s) (ReadRes r) = Ret (OVal (Some v))
  | None => tells (lf_world s) (ReadRes r) = Ret (OVal None)
  end.
Proof.
  intros H. pose proof (fx_res _ _ (life_fixed acts s H) r) as K. unfold tells. cbn [step]. rewrite fmapM_fst. unfold resource_read. rewrite bind_get.
  destruct (w_res (lf_world s) !! r) as [x|], (res_of _ r) as [y|]; try done. injection K as K. rewrite K, Nat.eqb_refl. by exists (rv_val x).
Qed.

(** ** No value is duplicated or made up *)
Lemma life_values t acts hands s : Forall2 (honest t) hands (entered acts) -> Forall (fun ev => in_place ev.1 = false) (exclusives acts born) ->
  lived acts born = Some s ->
  exists Hs, Forall2 (tacc t) Hs (lf_users s) /\
    ProofValue.held t (lf_world s) ++ concat Hs ++ all_returned t (exclusives acts born) ⊆+ all_given t (exclusives acts born) ++ concat hands.
Proof.
  revert hands s. induction acts as [|a acts IH] using rev_ind; intros hands s Hh Hp H.
  - injection H as <-. exists []. split; [constructor|]. cbn. apply submseteq_nil_l.
  - apply lived_snoc in H as (s1 & H1 & E). rewrite (exclusives_snoc acts a born s1 s H1 E) in *. rewrite entered_app in Hh. apply Forall_app in Hp as [Hp Ha].
    apply Forall2_app_inv_r in Hh as (hands1 & hands2 & Hh1 & Hh2 & ->). destruct (IH hands1 s1 Hh1 Hp H1) as (Hs & Hf & Hsub). rewrite concat_app.
    destruct a as [cl|i|o]; cbn [entered] in Hh2; rewrite ?app_nil_r.
    + apply Forall2_cons_inv_r in Hh2 as (h & hs & Hcl & Hn & ->). apply Forall2_nil_inv_r in Hn as ->. injection E as <-. cbn [lf_world lf_users concat].
      exists (Hs ++ [h]). split; [apply Forall2_app; [done|]; constructor; [|constructor]; unfold tacc; cbn [th_prog]; by apply acc_compile|].
      rewrite concat_app. cbn [concat]. rewrite !app_nil_r.
      rewrite (Permutation_app_comm (concat Hs) h), <- !app_assoc, (Permutation_app_swap_app (ProofValue.held t _) h), (Permutation_app_comm (concat hands1) h), (Permutation_app_swap_app (all_given t _) h).
      by apply submseteq_app.
    + apply Forall2_nil_inv_r in Hh2 as ->. cbn [concat]. rewrite app_nil_r. cbn [act1] in E. destruct (cstep i (conf_of s1)) as [c'|] eqn:Ec; [|done].
      injection E as <-. destruct (cstep_hinv t (ProofValue.held t (lf_world s1) ++ concat Hs) (conf_of s1) i c') as (Hs' & Hf' & Hle); [by exists Hs|done|].
      exists Hs'. split; [done|]. cbn [lf_world]. etransitivity; [|exact Hsub]. rewrite !app_assoc. by apply submseteq_app.
    + apply Forall2_nil_inv_r in Hh2 as ->. cbn [concat]. rewrite app_nil_r. apply act_do in E as [-> _]. exists []. split; [constructor|]. cbn [lf_world concat app].
      rewrite all_returned_snoc, all_given_snoc. apply Forall_cons in Ha as [Ho _]. cbn [fst] in Ho. unfold tells in *.
      assert (exists lost, ProofValue.held t (step o (lf_world s1)).2 ++ returned t (o, (step o (lf_world s1)).1) ++ lost ≡ₚ ProofValue.held t (lf_world s1) ++ given t (o, (step o (lf_world s1)).1)) as [lost El].
      { assert ((exists id ord, o = RemoveEntity id ord) \/ (forall id ord, o <> RemoveEntity id ord)) as [(id & ord & ->)|Hr] by (destruct o; first [by right|left; by do 2 eexists]).
        2: { destruct (ProofValue.step_values o (lf_world s1) t Ho) as (lost & El & _); [done|by exists lost]. }
        destruct (submseteq_Permutation _ _ (remove_entity_values id ord (lf_world s1) t)) as [lost El]. exists lost. cbn. by rewrite app_nil_r. }
      clear IH. revert El. generalize (given t (o, (step o (lf_world s1)).1)), (returned t (o, (step o (lf_world s1)).1)), (ProofValue.held t (step o (lf_world s1)).2).
      generalize dependent (all_returned t (exclusives acts born)). generalize (all_given t (exclusives acts born)). generalize (ProofValue.held t (lf_world s1)).
      intros h1 G R Hsub g r h2 El.
      transitivity ((h1 ++ R) ++ g).
      * rewrite (Permutation_app_comm R r), app_assoc, <- (app_assoc h1), (Permutation_app_comm R g), app_assoc, <- El, <- !app_assoc. apply submseteq_skips_l, submseteq_skips_l.
        apply submseteq_inserts_l. done.
      * rewrite <- (app_assoc G), (Permutation_app_comm g), app_assoc. apply submseteq_app; [|done]. etransitivity; [|exact Hsub]. apply submseteq_skips_l. by apply submseteq_inserts_l.
Qed.
(** Let every thread give only values it has ([hands] says which it has when
    it enters), and no exclusive call change values in place.  At every moment
    the values stored, and those exclusive calls were given back, are together
    among those the exclusive calls gave and those the threads brought. *)
Theorem C54_no_copies t acts hands s d : Forall2 (honest t) hands (entered acts) -> Forall (fun ev => in_place ev.1 = false) (exclusives acts born) ->
  lived acts born = Some s -> stores (lf_world s) t d ->
  d ++ all_returned t (exclusives acts born) ⊆+ all_given t (exclusives acts born) ++ concat hands.
Proof.
  intros Hh Hp H Hd. apply stores_held in Hd as <-. destruct (life_values t acts hands s Hh Hp H) as (Hs & _ & Hle).
  etransitivity; [|exact Hle]. apply submseteq_skips_l. by apply submseteq_inserts_l.
Qed.

(** ** An exclusive call's turn comes *)
Lemma phase_run acts s0 s : lf_users s0 = [] -> Forall (fun a => exclusive a = false) acts -> lived acts s0 = Some s ->
  run (moved acts) (start (lf_world s0) (entered acts)) = Some (conf_of s).
Proof.
  intros H0. revert s. induction acts as [|a acts IH] using rev_ind; intros s He H.
  - injection H as <-. cbn. unfold start, conf_of. by rewrite H0.
  - apply Forall_app in He as [He Ha]. apply Forall_cons in Ha as [Ha _]. apply lived_snoc in H as (s1 & H1 & E). specialize (IH s1 He H1).
    rewrite moved_app, entered_app. destruct a as [cl|i|o]; try done; cbn [moved entered act1] in *; rewrite app_nil_r.
    + injection E as <-. unfold start. rewrite map_app. cbn [map]. exact (run_more _ _ _ (compile [] cl) IH).
    + destruct (cstep i (conf_of s1)) as [c'|] eqn:Ec; [|done]. injection E as <-. rewrite (run_snoc _ _ _ _ _ IH Ec). unfold conf_of. cbn. by destruct c'.
Qed.
Lemma run_lived sched s c' : run sched (conf_of s) = Some c' -> lived (map Move sched) s = Some (Life (cf_world c') (cf_threads c')).
Proof.
  revert s. induction sched as [|i sched IH]; intros s; cbn [run map lived act1].
  - intros [= <-]. by destruct s.
  - destruct (cstep i (conf_of s)) as [c1|]; [|done]. intros H. apply IH. unfold conf_of. cbn. by destruct c1.
Qed.
(** Let the users that entered since the last exclusive call take their locks
    in the order C38 asks for.  Then from every moment on their steps can be
    made until all of them are over and an exclusive call can be made (or one
    of them ran into undefined behaviour: C54_safe says when not). *)
Theorem C54_turn rank gq acts0 acts s0 s : lived acts0 born = Some s0 -> lf_users s0 = [] ->
  Forall (fun a => exclusive a = false) acts -> lived acts s0 = Some s ->
  groups_in_order rank (lf_world s0) -> Forall (SpecConc.tidy rank gq (lf_world s0) None) (entered acts) ->
  exists sched s', lived (acts0 ++ acts ++ map Move sched) born = Some s' /\
    ((exists i, crashed (conf_of s') i) \/
     forallb over (lf_users s') = true /\ forall th, th ∈ lf_users s' -> th_holds th = []).
Proof.
  intros H0 Hu He H Hg Ht. pose proof (phase_run acts s0 s Hu He H) as Hr.
  destruct (C38_all_finish_partial rank gq (lf_world s0) (entered acts) (conf_of s) Hg Ht) as (c' & [sched Hs] & _ & Hf); [by eexists|].
  exists sched, (Life (cf_world c') (cf_threads c')). split; [rewrite lived_app, H0, lived_app, H; by apply run_lived|].
  assert (conf_of (Life (cf_world c') (cf_threads c')) = c') as E by (by destruct c'). rewrite E.
  destruct Hf as [Hf|Hf]; [by left|right]. cbn [lf_users]. split.
  - apply forallb_forall. intros th Hin. apply elem_of_list_In, elem_of_list_lookup in Hin as [i Hi]. destruct (Hf i th Hi) as (th' & Hi' & Hp & _).
    rewrite Hi in Hi'. injection Hi' as <-. unfold over. by rewrite Hp.
  - intros th Hin. apply elem_of_list_lookup in Hin as [i Hi]. destruct (Hf i th Hi) as (th' & Hi' & _ & Hh).
    rewrite Hi in Hi'. by injection Hi' as <-.
Qed.
End life.

(** ** Concrete cases *)
Section check.
Context {V : Type}.
Definition may_callb (w : world V) (o : op V) : bool :=
  match o with
  | Attach _ id _ | WriteComp _ id _ | StoreGetMut _ id _ => 1 <=? id
  | RemoveEntity _ ord => forallb (fun t => bool_decide (t ∈ ord)) (map_to_list (w_comps w)).*1
  | BatchAttach lo hi t _ => (1 <=? lo) && forallb (fun id => match SpecConc.shows w t id with Some _ => false | None => true end) (seq lo (hi - lo))
  | Query q | QueryMut q _ => q_plain q
  | _ => true
  end.
Definition may_stepb (i : nat) (c : conf V) : bool :=
  match did i c with
  | Some (BPut _ id _) => 1 <=? id
  | Some (BBatch t lo hi _) => (1 <=? lo) && forallb (fun id => match SpecConc.shows (cf_world c) t id with Some _ => false | None => true end) (seq lo (hi - lo))
  | _ => true
  end.
Definition mayb (s : life V) (a : action V) : bool :=
  match a with Enter _ => true | Move i => may_stepb i (conf_of s) | Do o => may_callb (lf_world s) o end.
Fixpoint orderlyb (acts : list (action V)) (s : life V) : bool :=
  match acts with
  | [] => true
  | a :: acts' => mayb s a && match act1 a s with Some s' => orderlyb acts' s' | None => true end
  end.
Lemma freshb_ok (w : world V) t lo hi : forallb (fun id => match SpecConc.shows w t id with Some _ => false | None => true end) (seq lo (hi - lo)) = true ->
  forall id, lo <= id < hi -> SpecConc.shows w t id = None.
Proof.
  intros H id Hid. assert (id ∈ seq lo (hi - lo)) as Hin by (apply elem_of_seq; lia). apply elem_of_list_In in Hin.
  pose proof (proj1 (forallb_forall _ _) H id Hin) as K. cbv beta in K. by destruct (SpecConc.shows w t id).
Qed.
Lemma mayb_ok (s : life V) a : mayb s a = true -> (forall c, a = Enter c -> plain_client c) -> may s a.
Proof.
  intros H Hp. destruct a as [cl|i|o]; cbn [mayb may] in *; [by apply Hp|..].
  - unfold may_stepb, may_step in *. destruct (did i (conf_of s)) as [[]|]; try done; [by apply Nat.leb_le|].
    apply andb_true_iff in H as [H1 H2]. split; [by apply Nat.leb_le|]. by apply freshb_ok.
  - destruct o; cbn [may_callb may_call] in *; try done; try (by apply Nat.leb_le).
    + intros t Ht. unfold tells in Ht. cbn in Ht. injection Ht as Ht%bool_decide_eq_true. destruct Ht as [st Hst].
      apply (bool_decide_eq_true_1 (t ∈ ord)). apply (proj1 (forallb_forall _ _) H). apply elem_of_list_In, elem_of_list_fmap. exists (t, st). split; [done|]. by apply elem_of_map_to_list.
    + apply andb_true_iff in H as [H1 H2]. split; [by apply Nat.leb_le|]. by apply freshb_ok.
Qed.
Lemma orderlyb_ok (acts : list (action V)) : orderlyb acts born = true -> Forall plain_client (entered acts) -> orderly acts.
Proof.
  intros H Hp pre a post s ->. revert H Hp. generalize (born (V := V)) as s0. induction pre as [|b pre IH]; intros s0 H Hp Hl.
  - injection Hl as <-. cbn [app orderlyb] in H. apply andb_true_iff in H as [H _]. apply mayb_ok; [done|]. intros c ->. cbn in Hp. by apply Forall_cons in Hp as [? _].
  - cbn [app orderlyb lived] in *. apply andb_true_iff in H as [_ H]. destruct (act1 b s0) as [s1|]; [|done]. apply (IH s1); [done| |done].
    destruct b; cbn [entered] in Hp; [by apply Forall_cons in Hp as [_ ?]|done|done].
Qed.
End check.

(** Two threads each make an entity and give it two components, by turns; then
    a type is registered and used, exclusively; then one thread moves a
    component from entity 2 to entity 1 while the other queries and removes
    entity 2; then a component is detached, exclusively. *)
Definition giver (v : nat) : client nat :=
  NewEntity (fun r => match r with Ret _ =>
    HAttach 0 1 v (fun r => match r with Ret _ =>
      HAttach 0 2 (v + 100) (fun r => match r with Ret _ => DropObj 0 Done | _ => Done end) | _ => Done end) | _ => Done end).
Definition mover : client nat :=
  Call (Detach 1 2) (fun r => match r with Ret (OVal (Some v)) => Call (Attach 1 1 v) (fun _ => Done) | _ => Done end).
Definition looker : client nat := Call (Query (Q2 (QRef false 1) (QRef false 2))) (fun _ => Call (RemoveEntity 2 [1; 3; 2]) (fun _ => Done)).
Definition turns1 : list nat :=
  [0; 0; 0; 1; 1; 1; 0; 1; 0; 1; 0; 1; 0; 0; 0; 1; 0; 1; 0; 1; 0; 1; 0;
        1; 1; 1; 0; 0; 0; 0; 0; 0; 0; 0; 0; 0; 1; 0; 1; 0; 1; 0; 1; 0; 1; 0;
        1; 1; 1; 1; 1; 0; 1; 0; 1; 0; 1; 0; 1; 0; 1; 0; 0; 0; 0; 0; 0; 0; 0;
        1; 0; 1; 1; 1; 1; 1; 1; 1; 1; 1; 1; 1; 1; 1].
Definition turns2 : list nat :=
  [0; 1; 0; 1; 0; 1; 0; 1; 0; 1; 0; 1; 0; 1; 0; 1; 0; 1; 0; 1; 0; 1; 0;
        1; 0; 1; 0; 0; 0; 0; 1; 0; 1; 0; 1; 0; 1; 0; 1; 0; 1; 0; 1; 0; 1; 1;
        0; 1; 0; 0; 1; 0; 1; 0; 1; 0; 1; 0; 1; 0; 1; 0; 1; 0; 1; 0; 1; 0; 1;
        1; 1; 0; 0; 0; 0; 0; 0; 1; 1; 1].
Definition a_life : list (action nat) :=
  [Do (Register 1); Do (Register 2); Do (MakeGroup KFull 1 2); Enter (giver 10); Enter (giver 20)] ++ map Move turns1 ++
  [Do (Register 3); Do (Attach 3 1 333); Enter mover; Enter looker] ++ map Move turns2 ++ [Do (Detach 2 1)].
Definition lf_at (acts : list (action nat)) : life nat := default born (lived acts born).
Lemma lf_at_ok acts : match lived acts (born (V := nat)) with Some _ => true | None => false end = true -> lived acts born = Some (lf_at acts).
Proof. unfold lf_at. by destruct (lived acts born). Qed.
Lemma a_life_plain : Forall plain_client (entered a_life).
Proof.
  change (entered a_life) with [giver 10; giver 20; mover; looker].
  repeat constructor; try done; try (intros [[]| | |]; cbn; try done; intros [[]| | |]; cbn; try done; intros [[]| | |]; done).
  intros [[| | | | |[v|]| | | | |]| | |]; done.
Qed.
Lemma a_life_orderly : orderly a_life.
Proof. apply orderlyb_ok; [vm_compute; reflexivity|exact a_life_plain]. Qed.
Lemma a_life_honest : Forall2 (honest 1) [[10]; [20]; []; []] (entered a_life).
Proof.
  change (entered a_life) with [giver 10; giver 20; mover; looker]. constructor; [|constructor; [|constructor; [|constructor; [|constructor]]]]; cbn [giver mover looker honest].
  - intros [r| | |]; cbn; try done. exists []. split; [done|]. intros [r'| | |]; cbn; try done. exists []. split; [done|]. by intros [r''| | |].
  - intros [r| | |]; cbn; try done. exists []. split; [done|]. intros [r'| | |]; cbn; try done. exists []. split; [done|]. by intros [r''| | |].
  - split; [done|]. exists []. split; [done|]. intros [[| | | | |[v|]| | | | |]| | |]; try done. cbn. split; [done|]. exists []. split; [done|]. done.
  - split; [done|]. exists []. split; [done|]. intros r. cbn. split; [done|]. exists []. split; [done|]. done.
Qed.
Example C54_case : orderly a_life /\ lived a_life born = Some (lf_at a_life) /\
  Forall2 (honest 1) [[10]; [20]; []; []] (entered a_life) /\ Forall (fun ev => in_place ev.1 = false) (exclusives a_life born) /\
  stores (lf_world (lf_at a_life)) 1 [20] /\ stores (lf_world (lf_at a_life)) 2 [] /\
  all_returned 2 (exclusives a_life born) = [110] /\
  tells (lf_world (lf_at a_life)) (ReadComp 1 1) = Ret (OVal (Some 20)) /\
  tells (lf_world (lf_at a_life)) (HasRegistered 3) = Ret (OBool true).
Proof.
  split; [exact a_life_orderly|]. split; [apply lf_at_ok; vm_compute; reflexivity|]. split; [exact a_life_honest|].
  split.
  { apply Forall_forall. intros ev Hin. apply elem_of_list_In in Hin. apply negb_true_iff. revert ev Hin.
    apply (proj1 (forallb_forall (fun ev : event nat => negb (in_place ev.1)) _)). vm_compute. reflexivity. }
  split; [vm_compute; reflexivity|]. split; [vm_compute; reflexivity|]. split; [vm_compute; reflexivity|]. split; [vm_compute; reflexivity|].
  vm_compute. reflexivity.
Qed.
(** The same life up to the first turns: the threads are in the middle of
    their work, one of them has guards, and nothing exclusive can happen. *)
Example C54_case_midway : let acts := take 40 a_life in orderly acts /\ lived acts born = Some (lf_at acts) /\
  act1 (Do (Register 3)) (lf_at acts) = None /\ exists th, th ∈ lf_users (lf_at acts) /\ th_holds th <> [].
Proof.
  split. { apply orderlyb_ok; [vm_compute; reflexivity|]. change (entered _) with [giver 10; giver 20].
    repeat constructor; try done; intros [[]| | |]; cbn; try done; intros [[]| | |]; cbn; try done; intros [[]| | |]; done. }
  split; [apply lf_at_ok; vm_compute; reflexivity|]. split; [vm_compute; reflexivity|].
  assert (existsb (fun th => negb (length (th_holds th) =? 0)) (lf_users (lf_at (take 40 a_life))) = true) as H by (vm_compute; reflexivity).
  apply existsb_exists in H as (th & Hin & Hl). exists th. split; [by apply elem_of_list_In|]. intros E. by rewrite E in Hl.
Qed.

(** C54_turn: the same moment. *)
Example C54_turn_case : let acts0 := take 3 a_life in let acts := drop 3 (take 40 a_life) in let s0 := lf_at acts0 in
  lived acts0 born = Some s0 /\ lf_users s0 = [] /\ Forall (fun a => exclusive a = false) acts /\ lived acts s0 = Some (lf_at (take 40 a_life)) /\
  groups_in_order id (lf_world s0) /\ Forall (SpecConc.tidy id false (lf_world s0) None) (entered acts) /\
  forallb over (lf_users (lf_at (take 40 a_life))) = false.
Proof.
  split; [apply lf_at_ok; vm_compute; reflexivity|]. split; [vm_compute; reflexivity|]. split; [repeat constructor|]. split.
  { assert (lived (take 3 a_life ++ drop 3 (take 40 a_life)) born = Some (lf_at (take 40 a_life))) as H.
    { replace (take 3 a_life ++ drop 3 (take 40 a_life)) with (take 40 a_life) by reflexivity. apply lf_at_ok. vm_compute. reflexivity. }
    rewrite lived_app in H. rewrite (lf_at_ok (take 3 a_life)) in H; [exact H|]. vm_compute. reflexivity. }
  split. { intros i k a b H. assert (i = 0) as ->. { destruct i; [done|]. vm_compute in H. by destruct i. } vm_compute in H. injection H as <- <- <-. simpl. lia. }
  split; [|vm_compute; reflexivity]. change (entered _) with [giver 10; giver 20].
  assert (forall w v, SpecConc.tidy id false w None (giver v)) as K; [|by apply List.Forall_cons; [apply K|apply List.Forall_cons; [apply K|apply List.Forall_nil]]].
  intros w v. split; [done|]. intros [r| | |]; cbn; try done. do 3 (split; [done|]). intros [r'| | |]; cbn; try done. do 3 (split; [done|]). by intros [r''| | |].
Qed.

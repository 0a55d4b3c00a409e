(** Plain queries look at the component table only. *)
From stdpp Require Import prelude list gmap.
From Verif Require Import Base Api ModelSparse ModelEntity ModelGroup ModelWorld ModelQuery ModelStep
  Spec History ProofSparse ProofEntity ProofGroup ProofWorld ProofWf ProofConc2 ProofMain ProofQueryMut ProofQuery4.

Section loose.
Context {V : Type}.
Implicit Types (w : world V).

(** the same components, each storage in the same order *)
Definition lsame (s s' : sset V) : Prop :=
  entities s = entities s' /\ sdata s = sdata s' /\ forall e, ss_get_index s e = ss_get_index s' e.
Definition csame w w' : Prop := forall t,
  match w_comps w !! t, w_comps w' !! t with
  | Some st, Some st' => st_ty st = st_ty st' /\ lsame (st_set st) (st_set st')
  | None, None => True
  | _, _ => False
  end.
Lemma lsame_loc s s' e : lsame s s' -> ss_get_loc s e = ss_get_loc s' e.
Proof.
  intros (_ & Ed & Ei). specialize (Ei e). unfold ss_get_index in Ei. unfold ss_get_loc. rewrite Ed.
  destruct (indices s !! e) as [[k|]|], (indices s' !! e) as [[k'|]|]; try done; try congruence. injection Ei as ->. done.
Qed.
Lemma csame_count w w' t : csame w w' -> st_count w t = st_count w' t.
Proof. intros E. specialize (E t). unfold st_count, ss_len. destruct (w_comps w !! t), (w_comps w' !! t); try done. destruct E as (_ & -> & _). done. Qed.
Lemma csame_reg w w' t : csame w w' -> has_registered t w = has_registered t w'.
Proof.
  intros E. specialize (E t). unfold has_registered. apply bool_decide_ext.
  destruct (w_comps w !! t), (w_comps w' !! t); try done; split; intros; try (by eexists); done.
Qed.
Record cblind (J : qiter V) : Prop := {
  cb_next : forall w w', csame w w' -> meq (qi_next J w) (qi_next J w');
  cb_next_id : forall w w', csame w w' -> meq (qi_next_id J w) (qi_next_id J w');
  cb_from : forall w w' id, csame w w' -> meq (qi_from_id J w id) (qi_from_id J w' id);
  cb_hint : forall w w' st, csame w w' -> qi_hint J w st = qi_hint J w' st;
  cb_fuel : forall w w' st, csame w w' -> qi_fuel J w st = qi_fuel J w' st }.
Ltac cb := repeat first
  [ progress intros
  | match goal with
    | |- meq ?m ?m => apply meq_refl
    | H : cblind ?J |- meq (qi_next_id ?J _) (qi_next_id ?J _) => by apply (cb_next_id _ H)
    | H : cblind ?J |- meq (qi_from_id ?J _ _) (qi_from_id ?J _ _) => by apply (cb_from _ H)
    | H : cblind ?J |- qi_fuel ?J _ _ = qi_fuel ?J _ _ => by apply (cb_fuel _ H)
    | H : cblind ?J |- S (qi_fuel ?J _ _) = S (qi_fuel ?J _ _) => f_equal; by apply (cb_fuel _ H)
    | |- meq (on_fst _) (on_fst _) => apply meq_fst
    | |- meq (on_snd _) (on_snd _) => apply meq_snd
    | |- meq (while_some _ _ _) (while_some _ _ _) => apply meq_while
    | |- meq (bind _ _) (bind _ _) => apply meq_bind
    | x : _ * item |- _ => destruct x
    | |- meq (match ?b with _ => _ end) _ => destruct b
    end ].
Ltac cbs := split; cbn [qi_next qi_next_id qi_from_id qi_hint qi_fuel with2 with3 with4 with5 without_left without_right]; cb; try reflexivity.
Lemma cblind_ref m t : cblind (iter_ref m t).
Proof.
  split.
  - intros w w' E st. cbn. unfold bind, get, ptr, data_unchecked, ss_len. specialize (E t).
    destruct (w_comps w !! t) as [s|], (w_comps w' !! t) as [s'|]; try done. destruct E as (_ & E1 & E2 & _). unfold ret. by rewrite E1, E2.
  - intros w w' E st. cbn. unfold bind, get, ptr, data_unchecked, ent_unchecked, ss_len. specialize (E t).
    destruct (w_comps w !! t) as [s|], (w_comps w' !! t) as [s'|]; try done. destruct E as (_ & E1 & E2 & _). unfold ret. by rewrite E1, E2.
  - intros w w' id E st. cbn. unfold bind, get, ptr. specialize (E t).
    destruct (w_comps w !! t) as [s|], (w_comps w' !! t) as [s'|]; try done. destruct E as (_ & E). unfold ret. by rewrite (lsame_loc _ _ id E).
  - intros w w' st E. cbn. by rewrite (csame_count w w' t E).
  - intros w w' st E. cbn. by rewrite (csame_count w w' t E).
Qed.
Lemma cblind_2 A B : cblind A -> cblind B -> cblind (with2 A B).
Proof. intros. cbs. Qed.
Lemma cblind_3 A B C : cblind A -> cblind B -> cblind C -> cblind (with3 A B C).
Proof. intros. cbs. Qed.
Lemma cblind_4 A B C D : cblind A -> cblind B -> cblind C -> cblind D -> cblind (with4 A B C D).
Proof. intros. cbs. Qed.
Lemma cblind_5 A B C D E : cblind A -> cblind B -> cblind C -> cblind D -> cblind E -> cblind (with5 A B C D E).
Proof. intros. cbs. Qed.
Lemma cblind_l A B : cblind A -> cblind B -> cblind (without_left A B).
Proof. intros. cbs. Qed.
Lemma cblind_r A B : cblind A -> cblind B -> cblind (without_right A B).
Proof. intros. cbs. Qed.

Lemma open_cblind q : q_plain q = true -> forall w w', csame w w' -> meq (query_open w q) (query_open w' q).
Proof.
  induction q; intros Hp w w' E; cbn [query_open q_plain] in *; try done;
    rewrite ?andb_true_iff in Hp; destruct_and?.
  { rewrite (csame_reg w w' t E).
    assert (meq (downcast w t) (downcast w' t)) as Hd.
    { specialize (E t). unfold downcast. destruct (w_comps w !! t), (w_comps w' !! t); try done. destruct E as [-> _]. apply meq_refl. }
    cb; done. }
  all: cb; eauto.
Qed.
Lemma opened_cblind q : q_plain q = true -> forall w h J h', query_open w q h = (Ret J, h') -> cblind J.
Proof.
  induction q; intros Hp w h J h' E; cbn [query_open q_plain] in *; try discriminate Hp; rewrite ?andb_true_iff in Hp.
  all: repeat match goal with H : _ /\ _ |- _ => destruct H end.
  all: repeat match goal with IH : q_plain ?q = true -> _, H : q_plain ?q = true |- _ => specialize (IH H) end.
  all: repeat match goal with
    | H : bind (query_open ?w ?q) _ ?h = (Ret _, _) |- _ =>
        let E := fresh "E" in let o := fresh "o" in unfold bind at 1 in H; destruct (query_open w q h) as [[o| | |] ?] eqn:E; try discriminate H
    | H : bind ?m _ ?h = (Ret _, _) |- _ => unfold bind at 1 in H; destruct (m h) as [[?| | |] ?]; try discriminate H
    | H : ret _ _ = (Ret _, _) |- _ => injection H as <- <-
    end; eauto 9 using cblind_ref, cblind_2, cblind_3, cblind_4, cblind_5, cblind_l, cblind_r.
Qed.

Lemma deref_csame it : forall w w', csame w w' -> deref w it = deref w' it.
Proof.
  induction it; intros w w' E; simpl;
    [unfold deref_loc; specialize (E t); destruct (w_comps w !! t), (w_comps w' !! t); try done; destruct E as (_ & _ & -> & _); done|..];
    repeat match goal with IH : forall w w', csame w w' -> deref w ?i = _ |- _ => rewrite (IH w w' E); clear IH end; done.
Qed.
Lemma collect_csame J n : cblind J -> forall w w' st, csame w w' -> collect n w J st = collect n w' J st.
Proof.
  intros HJ. induction n as [|n IH]; intros w w' st E; [done|]. cbn [collect]. rewrite (cb_next_id _ HJ w w' E st).
  destruct (qi_next_id J w' st) as [[[[id it]|]| | |] st']; try done. by rewrite (deref_csame it w w' E), (IH w w' _ E).
Qed.
Lemma run_query_csame w w' q : q_plain q = true -> csame w w' -> run_query w q = run_query w' q.
Proof.
  intros Hp E. unfold run_query. rewrite (open_cblind q Hp w w' E []). destruct (query_open w' q []) as [[J| | |] h] eqn:Eo; try done.
  pose proof (opened_cblind _ Hp _ _ _ _ Eo) as HJ. rewrite (cb_fuel _ HJ w w' _ E). by apply collect_csame.
Qed.
Lemma poke_csame w w' t i g : csame w w' -> csame (poke w t i g) (poke w' t i g).
Proof.
  intros E u. pose proof (E u) as Eu. pose proof (E t) as Et. unfold poke.
  destruct (w_comps w !! t) as [st|] eqn:H1, (w_comps w' !! t) as [st'|] eqn:H2; try done.
  destruct Et as (T1 & T2 & T3 & T4). rewrite <- T3. destruct (sdata (st_set st) !! i); [|done]. simpl. destruct (decide (u = t)) as [->|].
  - rewrite !lookup_insert. cbn [st_ty st_set]. split; [done|]. split; [done|]. split; [|done]. cbn [sdata ss_poke]. by rewrite T3.
  - by rewrite !lookup_insert_ne.
Qed.
Lemma poke_item_csame f id it : forall w w', csame w w' -> csame (poke_item f id it w) (poke_item f id it w').
Proof. induction it; intros w w' E; simpl; auto 6. destruct m; [by apply poke_csame|done]. Qed.
Lemma drive_csame J f n : cblind J -> forall w w' st, csame w w' ->
  (drive n J f st w).1 = (drive n J f st w').1 /\ csame (drive n J f st w).2 (drive n J f st w').2.
Proof.
  intros HJ. induction n as [|n IH]; intros w w' st E; [done|]. cbn [drive]. rewrite (cb_next_id _ HJ w w' E st).
  destruct (qi_next_id J w' st) as [[[[id it]|]| | |] st']; try done. rewrite (deref_csame it w w' E). destruct (deref w' it); [|done].
  destruct (IH (poke_item f id it w) (poke_item f id it w') st' (poke_item_csame f id it w w' E)) as [E1 E2].
  destruct (drive n J f st' (poke_item f id it w)) as [o s], (drive n J f st' (poke_item f id it w')) as [o' s']. cbn [fst snd] in *. subst o'.
  by destruct o.
Qed.
Lemma query_mut_csame q f w w' : q_plain q = true -> csame w w' ->
  (run_query_mut q f w).1 = (run_query_mut q f w').1 /\ csame (run_query_mut q f w).2 (run_query_mut q f w').2.
Proof.
  intros Hp E. unfold run_query_mut. rewrite (open_cblind q Hp w w' E []). destruct (query_open w' q []) as [[J| | |] h] eqn:Eo; try done.
  pose proof (opened_cblind _ Hp _ _ _ _ Eo) as HJ. rewrite (cb_fuel _ HJ w w' _ E). by apply drive_csame.
Qed.
Lemma collect_items_csame J n : cblind J -> forall w w' st, csame w w' -> collect_items n w J st = collect_items n w' J st.
Proof.
  intros HJ. induction n as [|n IH]; intros w w' st E; [done|]. cbn [collect_items]. rewrite (cb_next_id _ HJ w w' E st).
  destruct (qi_next_id J w' st) as [[[[id it]|]| | |] st']; try done. by rewrite (IH w w' _ E).
Qed.
Lemma query_items_csame w w' q : q_plain q = true -> csame w w' -> query_items w q = query_items w' q.
Proof.
  intros Hp E. unfold query_items. rewrite (open_cblind q Hp w w' E []). destruct (query_open w' q []) as [[J| | |] h] eqn:Eo; try done.
  pose proof (opened_cblind _ Hp _ _ _ _ Eo) as HJ. rewrite (cb_fuel _ HJ w w' _ E). by apply collect_items_csame.
Qed.

Lemma rewrite_csame g w w' : csame w w' -> csame (rewrite_values g w) (rewrite_values g w').
Proof.
  intros E t. specialize (E t). unfold rewrite_values. simpl. rewrite !map_lookup_imap.
  destruct (w_comps w !! t) as [st|], (w_comps w' !! t) as [st'|]; try done. simpl. destruct E as (T1 & T2 & T3 & T4).
  split; [done|]. split; [done|]. split; [|done]. cbn [sdata rewrite_set]. by rewrite T2, T3.
Qed.
Lemma calls_csame J cs : cblind J -> forall w w' st, csame w w' ->
  (run_calls J cs (w, st)).1 = (run_calls J cs (w', st)).1.
Proof.
  intros HJ. induction cs as [|c cs IH]; intros w w' st E; [done|]. cbn [run_calls].
  assert ((run_call J c (w, st)).1 = (run_call J c (w', st)).1 /\
    csame (run_call J c (w, st)).2.1 (run_call J c (w', st)).2.1 /\
    (run_call J c (w, st)).2.2 = (run_call J c (w', st)).2.2) as (E1 & E2 & E3).
  { unfold run_call. destruct c.
    - rewrite (cb_next _ HJ w w' E st). destruct (qi_next J w' st) as [[[it|]| | |] st']; try done.
      unfold read_item. rewrite (deref_csame it w w' E). by destruct (deref w' it).
    - rewrite (cb_next_id _ HJ w w' E st). destruct (qi_next_id J w' st) as [[[[id it]|]| | |] st']; try done.
      rewrite (deref_csame it w w' E). by destruct (deref w' it).
    - rewrite (cb_from _ HJ w w' id E st). destruct (qi_from_id J w' id st) as [[[it|]| | |] st']; try done.
      unfold read_item. rewrite (deref_csame it w w' E). by destruct (deref w' it).
    - rewrite (cb_hint _ HJ w w' st E). by destruct (qi_hint J w' st).
    - cbn [fst snd]. split; [done|]. split; [|done]. by apply rewrite_csame. }
  unfold bind at 1 3. destruct (run_call J c (w, st)) as [o [u s]], (run_call J c (w', st)) as [o' [u' s']]. cbn [fst snd] in *. subst o' s'.
  destruct o as [a| | |]; try done. specialize (IH u u' s E2). unfold bind.
  destruct (run_calls J cs (u, s)) as [[]], (run_calls J cs (u', s)) as [[]]; cbn [fst] in *; try done. by simplify_eq.
Qed.
Lemma use_csame w w' q cs : q_plain q = true -> csame w w' -> use_query w q cs = use_query w' q cs.
Proof.
  intros Hp E. unfold use_query. rewrite (open_cblind q Hp w w' E []). destruct (query_open w' q []) as [[J| | |] h] eqn:Eo; try done.
  pose proof (opened_cblind _ Hp _ _ _ _ Eo) as HJ. by apply calls_csame.
Qed.

(** ** A history keeping to the rules that leads to the same components *)
Definition fill (t : nat) (s : sset V) : list (op V) := Register t :: zip_with (Attach t) (entities s) (sdata s).
Definition rebuild (n : nat) (l : list (nat * storage V)) : list (op V) :=
  CreateEntities n :: (l ≫= fun x => fill x.1 (st_set x.2)).
Definition harmless (o : op V) : Prop :=
  match o with Register _ | CreateEntities _ => True | Attach _ id _ => 1 <= id | _ => False end.
Lemma harmless_rules ops aw : Forall harmless ops -> legal_all ops aw.
Proof. intros H. revert aw. induction H as [|o ops Ho H IH]; intros aw; [done|]. split; [|apply IH]. by destruct o. Qed.
Lemma exec_fill t s w : ss_wf s -> w_groups w = [] -> (forall e, e ∈ entities s -> exist e w = Ret true) -> w_comps w !! t = None ->
  exists s', exec (fill t s) w = set_comps (<[t := St t s']> (w_comps w)) w /\ lsame s s'.
Proof.
  intros W Hg He Hn.
  assert (step (Register t) w = (Ret OUnit, set_comps (<[t := St t ss_new]> (w_comps w)) w)) as Er.
  { cbn [step]. unfold fmapM, register, bind, get, assert, put, has_registered. rewrite Hn. done. }
  unfold fill. cbn [exec]. rewrite Er. cbn [snd].
  destruct (add_seq_rep (entities s) (sdata s) ss_new ∅ 0 rep_new (wf_len s W) (wf_nodup s W)) as (s' & E & Hr & Hen & _).
  { intros e _. apply lookup_empty. }
  exists s'. split.
  - clear Hr Hen. assert (forall es vs w s0 s', w_groups w = [] -> (forall e, e ∈ es -> exist e w = Ret true) -> w_comps w !! t = Some (St t s0) ->
      ss_wf s0 -> length es = length vs -> add_seq es vs s0 = (Ret tt, s') -> exec (zip_with (Attach t) es vs) w = set_comps (<[t := St t s']> (w_comps w)) w) as K.
    { clear. induction es as [|e es IH]; intros [|v vs] w s0 s' Hg He Hs W Hl E; try done.
      - cbn in E. injection E as <-. cbn. rewrite insert_id by done. by destruct w.
      - cbn [add_seq] in E. unfold bind in E. destruct (add_spec e v s0 W) as (s1 & E1 & W1 & _). rewrite E1 in E.
        cbn [zip_with exec].
        assert (step (Attach t e v) w = (Ret OUnit, set_comps (<[t := St t s1]> (w_comps w)) w)) as Es.
        { cbn [step]. unfold fmapM, attach_component, entity_attach, bind at 1 2 3 4 5 6 7, get, lift. rewrite (He e) by left.
          cbn. unfold assert, has_registered. rewrite Hs. cbn. unfold bind, storage_mut. rewrite Hs. cbn [st_ty st_set]. rewrite Nat.eqb_refl, E1. cbn.
          rewrite Hg. done. }
        rewrite Es. cbn [snd]. erewrite (IH vs _ s1 s'); [|done| |apply lookup_insert|done|by injection Hl|done].
        + unfold set_comps. cbn [w_comps w_em w_groups w_res]. by rewrite insert_insert.
        + intros x Hx. apply (He x). by right. }
    rewrite (K _ _ _ ss_new s'); [|done|done|apply lookup_insert|apply wf_new|apply (wf_len s W)|done].
    unfold set_comps. cbn [w_comps w_em w_groups w_res]. by rewrite insert_insert.
  - simpl in Hen. rewrite map_union_empty in Hr. split; [done|].
    assert (forall e, ss_get_index s e = ss_get_index s' e) as Hi.
    { intros e. apply option_eq. intros i. rewrite (wf_pos s W), (wf_pos s' (rep_wf _ _ _ Hr)). by rewrite Hen. }
    split; [|done]. apply list_eq. intros i. destruct (entities s !! i) as [e|] eqn:Ee.
    + pose proof (proj2 (wf_pos s W e i) Ee) as Hi1. pose proof Hi1 as Hi2. rewrite Hi in Hi2.
      pose proof (rep_lookup _ _ _ Hr e) as Hl. unfold ss_lookup in Hl. rewrite Hi2 in Hl. rewrite Hl.
      assert (is_Some (sdata s !! i)) as [v Hv]. { apply lookup_lt_is_Some_2. rewrite <- (wf_len s W). by eapply lookup_lt_Some. }
      rewrite Hv. symmetry. apply elem_of_list_to_map.
      * rewrite fst_zip by (rewrite (wf_len s W); done). by apply wf_nodup.
      * apply elem_of_list_lookup. exists i. rewrite lookup_zip_with, Ee, Hv. done.
    + apply lookup_ge_None in Ee. rewrite (lookup_ge_None_2 (sdata s)) by (by rewrite <- (wf_len s W)).
      rewrite (lookup_ge_None_2 (sdata s')); [done|]. rewrite <- (wf_len s' (rep_wf _ _ _ Hr)), Hen. done.
Qed.

Lemma exec_fills l : forall w, NoDup l.*1 -> w_groups w = [] ->
  (forall t st, (t, st) ∈ l -> ss_wf (st_set st) /\ st_ty st = t /\ w_comps w !! t = None /\ forall e, e ∈ entities (st_set st) -> exist e w = Ret true) ->
  let w' := exec (l ≫= fun x => fill x.1 (st_set x.2)) w in
  (forall t, t ∉ l.*1 -> w_comps w' !! t = w_comps w !! t) /\
  (forall t st, (t, st) ∈ l -> exists s', w_comps w' !! t = Some (St t s') /\ lsame (st_set st) s').
Proof.
  induction l as [|[t st] l IH]; intros w ND Hg Hl.
  { split; [done|]. by intros t st ?%elem_of_nil. }
  cbn [fmap list_fmap fst] in ND. apply NoDup_cons in ND as [Hni ND]. cbn [mbind list_bind fst snd].
  change (exec (fill t (st_set st) ++ (l ≫= fun x => fill x.1 (st_set x.2))) w) with (exec (fill t (st_set st) ++ (l ≫= fun x => fill x.1 (st_set x.2))) w).
  destruct (Hl t st) as (W & Hty & Hn & He); [left|]. rewrite exec_app. destruct (exec_fill t (st_set st) w W Hg He Hn) as (s' & -> & Hs).
  destruct (IH (set_comps (<[t := St t s']> (w_comps w)) w) ND Hg) as [H1 H2].
  { intros u su Hin. destruct (Hl u su) as (Wu & Hu & Hnu & Heu); [by right|]. split; [done|]. split; [done|]. split; [|done].
    simpl. rewrite lookup_insert_ne; [done|]. intros ->. apply Hni. apply elem_of_list_fmap. by exists (u, su). }
  cbv zeta in *. split.
  - intros u Hu. cbn [fmap list_fmap fst] in Hu. apply not_elem_of_cons in Hu as [Hne Hu]. rewrite (H1 u Hu). simpl. by rewrite lookup_insert_ne.
  - intros u su Hin. apply elem_of_cons in Hin as [[= -> ->]|Hin]; [|by apply H2].
    exists s'. split; [|done]. rewrite (H1 t Hni). simpl. by rewrite lookup_insert.
Qed.
Lemma same_components w : good w -> (forall t st, w_comps w !! t = Some st -> 0 ∉ entities (st_set st)) ->
  exists ops, Forall harmless ops /\ csame w (after ops).
Proof.
  intros G H0. set (l := map_to_list (w_comps w)). set (n := max_list (l ≫= fun x => entities (st_set x.2))).
  exists (rebuild n l).
  assert (forall t st e, (t, st) ∈ l -> e ∈ entities (st_set st) -> 1 <= e <= n) as Hb.
  { intros t st e Hin He. split.
    - destruct e; [|lia]. exfalso. apply elem_of_map_to_list in Hin. by apply (H0 t st Hin).
    - apply max_list_elem_of_le. apply elem_of_list_bind. by exists (t, st). }
  split.
  - constructor; [done|]. apply Forall_forall. intros o (x & Hx & Hin)%elem_of_list_bind. destruct x as [t st]. cbn [fst snd] in Hx.
    unfold fill in Hx. apply elem_of_cons in Hx as [->|Hx]; [done|].
    apply elem_of_list_lookup in Hx as [i Hi]. rewrite lookup_zip_with in Hi. destruct (entities (st_set st) !! i) as [e|] eqn:Ee; [|done].
    cbn in Hi. destruct (sdata (st_set st) !! i); [|done]. cbn in Hi. injection Hi as <-. cbn.
    apply (Hb t st); [done|]. apply elem_of_list_lookup. by exists i.
  - unfold after, rebuild. cbn [exec].
    assert (exists e', (step (CreateEntities n) w_new).2 = set_em e' w_new /\ forall x, 1 <= x <= n -> em_has e' x = Ret true) as (e' & -> & He').
    { destruct (em_allocate_n_spec em_new 0 [] n em_rel_new) as (e' & E & H'). exists e'. split.
      - cbn [step]. unfold fmapM, create_entities, bind, on_em. cbn [w_em w_new]. by rewrite E.
      - intros x Hx. rewrite (em_has_spec e' (0 + n) [] x H') by lia. rewrite decide_False by lia. rewrite bool_decide_true; [done|]. left. apply not_elem_of_nil. }
    destruct (exec_fills l (set_em e' w_new)) as [F1 F2].
    { apply NoDup_fst_map_to_list. } { done. }
    { intros t st Hin. pose proof Hin as Hin'. apply elem_of_map_to_list in Hin'. destruct (gd_st w G t st Hin') as [Hty W].
      split; [done|]. split; [done|]. split; [apply lookup_empty|]. intros e He. apply He'. by apply (Hb t st e). }
    cbv zeta in *. intros t. destruct (w_comps w !! t) as [st|] eqn:Et.
    + destruct (F2 t st) as (s' & -> & Hs); [by apply elem_of_map_to_list|]. cbn [st_ty st_set]. split; [|done]. by destruct (gd_st w G t st Et).
    + rewrite F1; [by simpl; rewrite lookup_empty|]. intros ([u st] & -> & Hin)%elem_of_list_fmap. apply elem_of_map_to_list in Hin. cbn in Et. congruence.
Qed.
End loose.

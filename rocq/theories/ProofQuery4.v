(** Using an iterator by hand; the visiting order. *)
From stdpp Require Import prelude list gmap.
From Verif Require Import Base Api ModelSparse ModelEntity ModelGroup ModelWorld ModelQuery ModelStep
  Spec History ProofSparse ProofEntity ProofGroup ProofWorld ProofOps ProofOps2 ProofRemove
  ProofQuery ProofQuery2 ProofQuery3 ProofQueryMut ProofMain ProofHistory.

Section query4.
Context {V : Type}.
Notation world := (world V).
Notation storage := (storage V).
Implicit Types (w : world) (aw : aworld V) (J : qiter V) (q : query).

(** ** Changing values only *)
Definition rewr (g : nat -> nat -> V -> V) aw : aworld V :=
  a_set_comps (upd_comps (fun _ _ => true) g (a_comps aw)) aw.

Lemma rewr_comp g aw t id : comp (rewr g aw) t id = g t id <$> comp aw t id.
Proof. unfold rewr. by rewrite upd_comp. Qed.

Lemma rewrite_wf g (s : sset V) : ss_wf s -> ss_wf (rewrite_set g s).
Proof.
  intros [L P N]. split; simpl.
  - by rewrite imap_length.
  - exact P.
  - exact N.
Qed.
Lemma rewrite_lookup g (s : sset V) e : ss_wf s -> ss_lookup (rewrite_set g s) e = g e <$> ss_lookup s e.
Proof.
  intros W. unfold ss_lookup. change (ss_get_index (rewrite_set g s) e) with (ss_get_index s e).
  destruct (ss_get_index s e) as [i|] eqn:E; [|done]. simpl. rewrite list_lookup_imap.
  apply (wf_pos _ W) in E. by rewrite E.
Qed.
Lemma rewrite_rep g (s : sset V) m n : ss_rep s m n ->
  ss_rep (rewrite_set g s) (map_imap (fun id v => Some (g id v)) m) n.
Proof.
  intros [W L S]. split; [by apply rewrite_wf| |done]. intros e. rewrite rewrite_lookup, L by done.
  rewrite map_lookup_imap. by destruct (m !! e).
Qed.

Lemma gdyn_shape g (a b a' b' : sset V) mem fr :
  indices a' = indices a -> entities a' = entities a -> indices b' = indices b -> entities b' = entities b ->
  gdyn g a b mem fr -> gdyn g a' b' mem fr.
Proof.
  intros I1 E1 I2 E2. destruct g as [d|d|d]; simpl.
  - unfold full_ok. by rewrite E1, E2.
  - unfold part_ok. by rewrite E1, E2.
  - unfold non_ok, ss_get_index. by rewrite E1, E2, I1, I2.
Qed.
Lemma shape_gok w w' g ag : shape w w' -> gok (w_comps w) g ag -> gok (w_comps w') g ag.
Proof.
  intros Sh [St Ne (sa & sb & Ha & Hb & Hd)]. split; [done|done|].
  destruct (shape_Some _ _ _ _ Sh Ha) as (sa' & Ha' & (_ & I1 & E1 & _)).
  destruct (shape_Some _ _ _ _ Sh Hb) as (sb' & Hb' & (_ & I2 & E2 & _)).
  exists sa', sb'. split; [done|]. split; [done|]. by eapply gdyn_shape.
Qed.

Lemma rewrite_shape g w : shape w (rewrite_values g w).
Proof.
  split; [done|]. intros t. simpl. rewrite map_lookup_imap. destruct (w_comps w !! t) as [st|]; [|done]. simpl.
  split_and!; try done. simpl. by rewrite imap_length.
Qed.
Lemma rewrite_R g w aw : R w aw -> R (rewrite_values g w) (rewr g aw).
Proof.
  intros H. split.
  - apply H.
  - intros t. simpl. rewrite map_lookup_imap, upd_lookup. pose proof (R_st _ _ H t) as S.
    destruct (w_comps w !! t) as [st|], (a_comps aw !! t) as [m|]; try done; simpl.
    destruct S as [Ty Rt]. split; [done|]. by apply rewrite_rep.
  - change (Forall2 (gok (w_comps (rewrite_values g w))) (w_groups w) (a_groups aw)).
    eapply Forall2_impl; [apply H|]. intros x y. apply shape_gok. apply rewrite_shape.
  - apply H.
  - apply H.
Qed.

(** the static part of a query: where the items are *)
Lemma q_item_shape w w' aw aw' q id : shape w w' -> a_groups aw' = a_groups aw ->
  q_item w' aw' q id = q_item w aw q id.
Proof.
  intros Sh Hg.
  assert (forall ma mb a b, pair_loc w' ma mb a b id = pair_loc w ma mb a b id) as Hp.
  { intros. unfold pair_loc. by rewrite !(loc_shape w w' _ id Sh). }
  induction q; simpl; unfold get2, get3, get4, get5, get_not; rewrite ?IHq1, ?IHq2, ?IHq3, ?IHq4, ?IHq5; try done.
  - by rewrite (loc_shape w w' t id Sh).
  - unfold find_agroup. rewrite Hg, Hp. done.
Qed.

(** ** Calls *)
Fixpoint aw_calls (sized : bool) q aw (rem : list nat) (cs : list (qcall V)) : list (qans V) :=
  match cs with
  | [] => []
  | CNext :: cs' => AItem (head rem ≫= q_get aw q) :: aw_calls sized q aw (tail rem) cs'
  | CNextId :: cs' =>
      AIdItem (head rem ≫= (fun id => (fun v => (id, v)) <$> q_get aw q id))
      :: aw_calls sized q aw (tail rem) cs'
  | CFromId id :: cs' => AItem (q_get aw q id) :: aw_calls sized q aw rem cs'
  | CHint :: cs' => AHint (if sized then Some (length rem) else None) :: aw_calls sized q aw rem cs'
  | CWrite g :: cs' => AWrote :: aw_calls sized q (rewr g aw) rem cs'
  end.

Lemma read_item_spec w aw q id : R w aw -> read_item w (q_item w aw q id) = Ret (q_get aw q id).
Proof.
  intros H. pose proof (q_item_get w aw q id H) as I. unfold item_val, read_item in *.
  destruct (q_item w aw q id) as [it|]; [|by rewrite I]. destruct I as [-> [v ->]]. done.
Qed.

Lemma run_calls_spec sz w0 aw0 q J l0 : iter_ok sz w0 J (q_item w0 aw0 q) l0 ->
  forall cs (Rst : qi_st J -> list (nat * item) -> Prop), (forall w', shape w0 w' -> forall st l, Rst st l ->
      (match l with
       | [] => exists st', qi_next_id J w' st = (Ret None, st') /\ Rst st' []
       | x :: l' => exists st', qi_next_id J w' st = (Ret (Some x), st') /\ Rst st' l'
       end) /\
      (match l with
       | [] => exists st', qi_next J w' st = (Ret None, st') /\ Rst st' []
       | x :: l' => exists st', qi_next J w' st = (Ret (Some x.2), st') /\ Rst st' l'
       end) /\
      (forall id, exists st', qi_from_id J w' id st = (Ret (q_item w0 aw0 q id), st') /\ Rst st' l) /\
      length l <= qi_fuel J w' st /\
      qi_hint J w' st = Ret (if sz then Some (length l) else None)) ->
  forall w aw st l, shape w0 w -> a_groups aw = a_groups aw0 -> R w aw -> Rst st l -> l ⊆ l0 ->
  exists s', run_calls J cs (w, st) = (Ret (aw_calls sz q aw l.*1 cs), s').
Proof.
  intros OK cs Rst Run. induction cs as [|c cs IH]; intros w aw st l Sh Hg H HR Hl; [by eexists|].
  cbn [run_calls]. destruct (Run w Sh st l HR) as (N1 & N2 & N3 & _ & N5).
  assert (forall id it, (id, it) ∈ l -> deref w it = q_get aw q id /\ is_Some (q_get aw q id)) as Hd.
  { intros id it Hin. apply Hl in Hin. apply (io_get _ _ _ _ _ OK) in Hin.
    rewrite <- (q_item_shape w0 w aw0 aw q id Sh Hg) in Hin. pose proof (q_item_get w aw q id H) as I.
    rewrite Hin in I. exact I. }
  destruct c as [| |id| |g]; cbn [aw_calls].
  - destruct l as [|[id it] l].
    + destruct N2 as (st' & E & HR'). destruct (IH w aw st' [] Sh Hg H HR' Hl) as (s' & E').
      eexists. unfold bind at 1. cbn [run_call]. rewrite E. simpl. unfold bind at 1. by rewrite E'.
    + destruct N2 as (st' & E & HR'). destruct (IH w aw st' l Sh Hg H HR') as (s' & E'); [set_solver|].
      destruct (Hd id it) as [D [v Hv]]; [left|]. eexists. unfold bind at 1. cbn [run_call]. rewrite E.
      cbn [snd read_item]. rewrite D, Hv. unfold bind at 1. rewrite E'. cbn. rewrite Hv. done.
  - destruct l as [|[id it] l].
    + destruct N1 as (st' & E & HR'). destruct (IH w aw st' [] Sh Hg H HR' Hl) as (s' & E').
      eexists. unfold bind at 1. cbn [run_call]. rewrite E. simpl. unfold bind at 1. by rewrite E'.
    + destruct N1 as (st' & E & HR'). destruct (IH w aw st' l Sh Hg H HR') as (s' & E'); [set_solver|].
      destruct (Hd id it) as [D [v Hv]]; [left|]. eexists. unfold bind at 1. cbn [run_call]. rewrite E.
      rewrite D, Hv. unfold bind at 1. rewrite E'. cbn. rewrite Hv. done.
  - destruct (N3 id) as (st' & E & HR'). destruct (IH w aw st' l Sh Hg H HR' Hl) as (s' & E').
    eexists. unfold bind at 1. cbn [run_call]. rewrite E. rewrite <- (q_item_shape w0 w aw0 aw q id Sh Hg).
    rewrite (read_item_spec w aw q id H). unfold bind at 1. by rewrite E'.
  - destruct (IH w aw st l Sh Hg H HR Hl) as (s' & E').
    eexists. unfold bind at 1. cbn [run_call]. rewrite N5. unfold bind at 1. rewrite E'. cbn.
    destruct sz; by rewrite ?fmap_length.
  - destruct (IH (rewrite_values g w) (rewr g aw) st l) as (s' & E').
    + eapply shape_trans; [exact Sh|]. apply rewrite_shape.
    + done.
    + by apply rewrite_R.
    + done.
    + done.
    + eexists. unfold bind at 1. cbn [run_call]. unfold bind at 1. by rewrite E'.
Qed.

Lemma use_query_spec w aw q cs : R w aw -> q_fresh aw q = true ->
  match a_open aw q with
  | Ret _ => use_query w q cs = Ret (aw_calls (q_sized q) q aw (q_list w aw q) cs)
  | Panic => use_query w q cs = Panic
  | UB => False
  | Block => use_query w q cs = Block
  end.
Proof.
  intros H Hf. pose proof (query_open_ok w aw q [] [] H Hf) as O. rewrite app_nil_r in O.
  unfold a_open. unfold use_query. destruct (query_open w q []) as [[J| | |] h']; simpl in O.
  2:{ by rewrite O. } 2:{ done. } 2:{ by rewrite O. }
  destruct O as (-> & l & OK & Ord & Vis). cbn [open_reqs]. pose proof OK as [ND Gt (Rst & R0 & Run)].
  destruct (run_calls_spec _ w aw q J l OK cs Rst Run w aw (qi_init J) l (shape_refl w) eq_refl H R0) as (s' & E); [done|].
  rewrite E. cbn [fst]. by rewrite Ord.
Qed.

(** ** The visiting order of a whole query *)
Lemma run_query_order w aw q : R w aw -> q_fresh aw q = true ->
  match a_open aw q with
  | Ret _ => exists l, run_query w q = Ret l /\ q_result aw q l /\ l.*1 = q_list w aw q
  | Panic => run_query w q = Panic
  | UB => False
  | Block => run_query w q = Block
  end.
Proof.
  intros H Hf. pose proof (query_open_ok w aw q [] [] H Hf) as O. rewrite app_nil_r in O.
  unfold a_open. unfold run_query. destruct (query_open w q []) as [[J| | |] h']; simpl in O.
  2:{ by rewrite O. } 2:{ done. } 2:{ by rewrite O. }
  destruct O as (-> & l & OK & Ord & Vis). pose proof OK as [ND Gt (Rst & R0 & Run)].
  destruct (items_values _ w aw q J l H OK Vis) as (vs & F & Hvs).
  exists vs. split; [|split; [done|]].
  - eapply (ProofQuery3.collect_spec w J (q_item w aw q) l Rst vs); [|exact F|done|].
    + intros st l0 H0. apply (Run w (shape_refl w) st l0 H0).
    + pose proof (Run w (shape_refl w) _ _ R0) as (_ & _ & _ & Hlen & _). lia.
  - rewrite <- Ord. clear -F. induction F as [|x y l vs (E & _) F IH]; [done|]. cbn [fmap list_fmap]. by f_equal.
Qed.

(** a mutable query visits the same entities, in the same order, with the
    same values *)
Lemma run_query_mut_same w aw q f : R w aw -> q_fresh aw q = true ->
  (run_query_mut q f w).1 = run_query w q.
Proof.
  intros H Hf. pose proof (query_open_ok w aw q [] [] H Hf) as O. rewrite app_nil_r in O.
  assert (a_open aw q = Ret tt -> nconf (q_leaves q)) as Hc by apply a_open_nconf.
  unfold a_open in *. unfold run_query_mut, run_query. destruct (query_open w q []) as [[J| | |] h']; simpl in O; try done.
  destruct O as (Eo & l & OK & Ord & Vis). rewrite Eo in *. cbn [open_reqs]. pose proof OK as [ND Gt (Rst & R0 & Run)].
  specialize (Hc eq_refl).
  destruct (items_values _ w aw q J l H OK Vis) as (vs & F & Hvs).
  assert (length l < S (qi_fuel J w (qi_init J))) as Hlen.
  { pose proof (Run w (shape_refl w) _ _ R0) as (_ & _ & _ & Hlen & _). lia. }
  destruct (drive_spec w J f Rst (q_leaves q) aw) with (l := l) (vs := vs) (P := fun _ _ : nat => false)
    (fuel := S (qi_fuel J w (qi_init J))) (st := qi_init J) (w := w) as (w' & E & H').
  - intros w' Hw st l0 H0. apply (Run w' Hw st l0 H0).
  - done.
  - done.
  - eapply Forall2_impl; [exact F|]. intros x y (E1 & _ & E2). done.
  - rewrite upd_id by done. by destruct aw.
  - apply shape_refl.
  - done.
  - intros [id it] Hin. simpl. apply Gt in Hin. by apply q_item_refs in Hin.
  - done.
  - done.
  - done.
  - rewrite E. cbn [fst]. symmetry.
    eapply (ProofQuery3.collect_spec w J (q_item w aw q) l Rst vs); [|exact F|done|done].
    intros st l0 H0. apply (Run w (shape_refl w) st l0 H0).
Qed.

(** ** Plain queries and complete groups: [q_get] is [q_sem] *)
(** every group the query iterates contains all entities with both types *)
Fixpoint q_complete aw q : Prop :=
  match q with
  | QRef _ _ => True
  | Q2 a b | QWithoutL a b | QWithoutR a b => q_complete aw a /\ q_complete aw b
  | Q3 a b c => q_complete aw a /\ q_complete aw b /\ q_complete aw c
  | Q4 a b c d => q_complete aw a /\ q_complete aw b /\ q_complete aw c /\ q_complete aw d
  | Q5 a b c d e => q_complete aw a /\ q_complete aw b /\ q_complete aw c /\ q_complete aw d /\ q_complete aw e
  | QGroup k _ _ a b => exists g, find_agroup aw k a b = Some g /\
      forall id, id ∈ ag_mem g <-> has aw a id /\ has aw b id
  end.
Lemma plain_complete aw q : q_plain q = true -> q_complete aw q.
Proof. induction q; simpl; rewrite ?andb_true_iff; naive_solver. Qed.
Lemma plain_fresh aw q : q_plain q = true -> q_fresh aw q = true.
Proof. induction q; simpl; rewrite ?andb_true_iff; naive_solver. Qed.

Lemma complete_get aw q val id : q_complete aw q -> (forall t id, val t id = comp aw t id) ->
  q_get aw q id = q_sem val q id.
Proof.
  intros C Hv. induction q; simpl in C; destruct_and?; simpl.
  - by rewrite Hv.
  - rewrite IHq1, IHq2 by done. done.
  - rewrite IHq1, IHq2, IHq3 by done. done.
  - rewrite IHq1, IHq2, IHq3, IHq4 by done. done.
  - rewrite IHq1, IHq2, IHq3, IHq4, IHq5 by done. done.
  - rewrite IHq1, IHq2 by done. done.
  - rewrite IHq1, IHq2 by done. done.
  - destruct C as (g & Hg & Hm). assert (pair_get aw a b id = both_vals val a b id) as E.
    { unfold pair_get, both_vals. by rewrite !Hv. }
    destruct k; [done|done|]. rewrite Hg. case_decide as D; [done|]. rewrite <- E. unfold pair_get.
    destruct (comp aw a id) as [x|] eqn:Ea; [|done]. destruct (comp aw b id) as [y|] eqn:Eb; [|done].
    destruct D. apply Hm. unfold has. rewrite Ea, Eb. eauto.
Qed.
Ltac solve_some := split; intros; destruct_and?;
  repeat match goal with H : is_Some None |- _ => destruct H as [? ?]; discriminate end;
  try discriminate; repeat split; eauto.
Lemma complete_visits aw q id : q_complete aw q -> q_visits aw q id = true <-> is_Some (q_get aw q id).
Proof.
  intros C. induction q; simpl in C; destruct_and?; simpl; rewrite ?andb_bd.
  - rewrite bool_decide_eq_true. unfold has. by rewrite fmap_is_Some.
  - rewrite IHq1 by done. destruct (q_get aw q1 id), (q_get aw q2 id); solve_some.
  - rewrite IHq1 by done. destruct (q_get aw q1 id), (q_get aw q2 id), (q_get aw q3 id); solve_some.
  - rewrite IHq1 by done. destruct (q_get aw q1 id), (q_get aw q2 id), (q_get aw q3 id), (q_get aw q4 id); solve_some.
  - rewrite IHq1 by done. destruct (q_get aw q1 id), (q_get aw q2 id), (q_get aw q3 id), (q_get aw q4 id), (q_get aw q5 id); solve_some.
  - rewrite IHq2 by done. destruct (q_get aw q1 id); solve_some.
  - rewrite IHq1 by done. destruct (q_get aw q2 id); solve_some.
  - destruct C as (g & Hg & Hm). rewrite Hg, bool_decide_eq_true, Hm.
    assert (has aw a id /\ has aw b id <-> is_Some (pair_get aw a b id)) as E.
    { unfold has, pair_get. destruct (comp aw a id), (comp aw b id); solve_some. }
    destruct k; [done|done|]. rewrite Hg. case_decide as D; [done|]. rewrite <- Hm. split; [done|]. by intros [? ?].
Qed.

Lemma complete_rewr g aw q : q_complete aw q -> q_complete (rewr g aw) q.
Proof.
  assert (forall t id, has (rewr g aw) t id <-> has aw t id) as Hh.
  { intros. unfold has. rewrite rewr_comp. by rewrite fmap_is_Some. }
  induction q; simpl; try tauto. intros (h & Hg & Hm). exists h. split; [done|]. intros id. by rewrite Hm, !Hh.
Qed.

Lemma calls_sem sz q cs : forall aw val rem, q_complete aw q -> (forall t id, val t id = comp aw t id) ->
  aw_calls sz q aw rem cs = q_calls sz q val rem cs.
Proof.
  assert (forall aw val (rem : list nat), q_complete aw q -> (forall t id, val t id = comp aw t id) ->
    (head rem ≫= q_get aw q) = (head rem ≫= q_sem val q)) as Hn.
  { intros aw val rem C Hv. destruct rem as [|id rem]; [done|]. simpl. by apply complete_get. }
  induction cs as [|c cs IH]; intros aw val rem C Hv; [done|].
  destruct c; cbn [aw_calls q_calls].
  - f_equal; [f_equal; by apply Hn|by apply IH].
  - f_equal; [f_equal|by apply IH]. destruct rem as [|id rem]; [done|]. simpl. by rewrite (complete_get aw q val id).
  - rewrite (complete_get aw q val id) by done. f_equal. by apply IH.
  - f_equal. by apply IH.
  - f_equal. apply IH; [by apply complete_rewr|]. intros t id. by rewrite rewr_comp, Hv.
Qed.

End query4.

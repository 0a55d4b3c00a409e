(** Proofs about the group bookkeeping on two storages. *)
From stdpp Require Import prelude list gmap.
From Verif Require Import Base Api ModelSparse ModelGroup ProofSparse.

Lemma take_swap_ge {A} (l : list A) n i j : n <= i -> n <= j -> take n (swap_list l i j) = take n l.
Proof.
  intros Hi Hj. unfold swap_list. destruct (l !! i), (l !! j); try done.
  by rewrite !take_insert by lia.
Qed.
Lemma take_S_swap {A} (l : list A) n i x : n <= i -> l !! i = Some x ->
  take (S n) (swap_list l i n) = take n l ++ [x].
Proof.
  intros Hi Hx. pose proof (lookup_lt_Some _ _ _ Hx).
  rewrite (take_S_r _ n x).
  - by rewrite take_swap_ge by lia.
  - rewrite swap_list_lookup by lia. unfold swapn. case_decide as E; [by subst|].
    by rewrite decide_True.
Qed.

Section group.
Context {V : Type}.
Implicit Types a b s : sset V.

(** The first [len] entities of both storages are the members, in the same
    order. *)
Definition full_ok (len : nat) a b (mem : gset nat) : Prop :=
  len <= length (entities a) /\ len <= length (entities b) /\
  take len (entities a) = take len (entities b) /\
  mem = list_to_set (take len (entities a)).
Definition part_ok (len : nat) a b (mem : gset nat) : Prop :=
  len <= length (entities a) /\
  mem = list_to_set (take len (entities a)) /\
  (forall e, e ∈ mem -> e ∈ entities b).
Definition non_ok (g : sset (nat * nat)) a b (mem : gset nat) (fresh : bool) : Prop :=
  ss_wf g /\
  (forall e, e ∈ mem <-> e ∈ entities g) /\
  (forall e, e ∈ mem -> e ∈ entities a /\ e ∈ entities b) /\
  (fresh = true -> forall e ja jb, ss_lookup g e = Some (ja, jb) ->
     ss_get_index a e = Some ja /\ ss_get_index b e = Some jb).

Lemma elem_take_pos s e i n : ss_wf s -> ss_get_index s e = Some i -> n <= length (entities s) ->
  e ∈ take n (entities s) <-> i < n.
Proof.
  intros W Hi Hn. rewrite elem_of_list_lookup. split.
  - intros [k Hk]. apply lookup_take_Some in Hk as [Hk Hlt]. apply (wf_pos s W) in Hk.
    assert (k = i) as -> by congruence. done.
  - intros Hlt. exists i. apply lookup_take_Some. split; [|done]. by apply (wf_pos s W).
Qed.

Lemma in_components_spec a b id :
  in_components a b id = true <-> is_Some (ss_get_index a id) /\ is_Some (ss_get_index b id).
Proof. unfold in_components. rewrite andb_true_iff, !exist_pos. done. Qed.

Lemma full_ok_elem len a b mem e : ss_wf a -> ss_wf b -> full_ok len a b mem -> e ∈ mem ->
  e ∈ entities a /\ e ∈ entities b.
Proof.
  intros Wa Wb (La & Lb & T & ->) He. apply elem_of_list_to_set in He. split.
  - by eapply elem_of_take in He as (? & ? & ?); eapply elem_of_list_lookup_2; eauto.
  - rewrite T in He. eapply elem_of_take in He as (? & ? & ?). eapply elem_of_list_lookup_2; eauto.
Qed.

(** The positions of a member agree. *)
Lemma full_ok_pos len a b mem id ia ib : ss_wf a -> ss_wf b -> full_ok len a b mem ->
  ss_get_index a id = Some ia -> ss_get_index b id = Some ib ->
  (ia < len <-> ib < len) /\ (ia < len -> ia = ib) /\ (id ∈ mem <-> ia < len).
Proof.
  intros Wa Wb (La & Lb & T & ->) Ha Hb.
  pose proof (elem_take_pos a id ia len Wa Ha La) as Ea.
  pose proof (elem_take_pos b id ib len Wb Hb Lb) as Eb. rewrite <- T in Eb.
  split_and!.
  - rewrite <- Ea, <- Eb. done.
  - intros Hlt. apply (wf_pos a Wa) in Ha.
    assert (take len (entities b) !! ia = Some id) as Hb'.
    { rewrite <- T. by rewrite lookup_take. }
    rewrite lookup_take in Hb' by done. apply (wf_pos b Wb) in Hb'. congruence.
  - rewrite elem_of_list_to_set. done.
Qed.

Lemma full_in_group_spec d a b mem id : ss_wf a -> ss_wf b -> full_ok (fd_len d) a b mem ->
  full_in_group d a b id = Ret (bool_decide (id ∈ mem)).
Proof.
  intros Wa Wb H. unfold full_in_group. destruct (in_components a b id) eqn:E; simpl.
  - apply in_components_spec in E as [[ia Ha] [ib Hb]]. rewrite Ha, Hb.
    destruct (full_ok_pos _ _ _ _ _ _ _ Wa Wb H Ha Hb) as (P1 & P2 & P3).
    f_equal. rewrite (bool_decide_ext _ _ P3). case_bool_decide as C.
    + apply andb_true_iff. rewrite !Nat.ltb_lt. tauto.
    + apply andb_false_iff. rewrite !Nat.ltb_ge. lia.
  - f_equal. rewrite bool_decide_false; [done|]. intros Hm.
    destruct (full_ok_elem _ _ _ _ _ Wa Wb H Hm) as [Ha Hb].
    apply (elem_pos a id Wa) in Ha. apply (elem_pos b id Wb) in Hb.
    assert (in_components a b id = true); [by apply in_components_spec|congruence].
Qed.

(** Extending the prefix by swapping an entity present in both storages to
    its end. *)
Lemma full_extend len a b mem id ia ib ma na mb nb :
  ss_rep a ma na -> ss_rep b mb nb -> full_ok len a b mem ->
  ss_get_index a id = Some ia -> ss_get_index b id = Some ib -> len <= ia -> len <= ib ->
  exists a' b', ss_swap_by_index ia len a = (Ret tt, a') /\ ss_swap_by_index ib len b = (Ret tt, b') /\
    ss_rep a' ma na /\ ss_rep b' mb nb /\ full_ok (len + 1) a' b' ({[id]} ∪ mem) /\
    entities a' = swap_list (entities a) ia len /\ entities b' = swap_list (entities b) ib len.
Proof.
  intros Ra Rb (La & Lb & T & ->) Ha Hb Hia Hib.
  pose proof Ha as Ea. pose proof Hb as Eb.
  apply (wf_pos a (rep_wf _ _ _ Ra)) in Ea. apply (wf_pos b (rep_wf _ _ _ Rb)) in Eb.
  pose proof (lookup_lt_Some _ _ _ Ea). pose proof (lookup_lt_Some _ _ _ Eb).
  destruct (swap_by_index_rep ia len a ma na Ra) as (a' & Sa & Ra' & Ena & _); [lia..|].
  destruct (swap_by_index_rep ib len b mb nb Rb) as (b' & Sb & Rb' & Enb & _); [lia..|].
  exists a', b'. split_and!; try done.
  rewrite Nat.add_1_r. unfold full_ok. rewrite Ena, Enb, !swap_list_length. split_and!; [lia..| |].
  - rewrite (take_S_swap _ _ _ id), (take_S_swap _ _ _ id) by done. by rewrite T.
  - rewrite (take_S_swap _ _ _ id) by done. rewrite list_to_set_app_L. simpl. set_solver.
Qed.

Lemma full_add_spec d a b mem id ma na mb nb :
  ss_rep a ma na -> ss_rep b mb nb -> full_ok (fd_len d) a b mem ->
  exists a' b' n', full_add id (GC d a b) = (Ret tt, GC (FD n' (fd_a d) (fd_b d)) a' b') /\
    ss_rep a' ma na /\ ss_rep b' mb nb /\
    full_ok n' a' b' (if bool_decide (is_Some (ma !! id)) && bool_decide (is_Some (mb !! id))
                      then {[id]} ∪ mem else mem).
Proof.
  intros Ra Rb H. pose proof (rep_wf _ _ _ Ra) as Wa. pose proof (rep_wf _ _ _ Rb) as Wb.
  unfold full_add. cbn [bind get gc_a gc_b gc_d].
  change (in_components a b id) with (ss_exist a id && ss_exist b id).
  rewrite <- (rep_exist _ _ _ id Ra), <- (rep_exist _ _ _ id Rb).
  fold (in_components a b id). destruct (in_components a b id) eqn:E; simpl.
  2:{ exists a, b, (fd_len d). destruct d. done. }
  unfold bind, lift. rewrite (full_in_group_spec d a b mem id Wa Wb H).
  apply in_components_spec in E as [[ia Ha] [ib Hb]].
  destruct (full_ok_pos _ _ _ _ _ _ _ Wa Wb H Ha Hb) as (P1 & P2 & P3).
  case_bool_decide as C.
  - exists a, b, (fd_len d). destruct d; simpl in *. split_and!; try done.
    replace ({[id]} ∪ mem) with mem by set_solver. done.
  - rewrite P3 in C. unfold unwrap. rewrite Ha, Hb. unfold ret.
    destruct (full_extend _ _ _ _ id ia ib _ _ _ _ Ra Rb H Ha Hb) as (a' & b' & Sa & Sb & Ra' & Rb' & Hok & _ & _); [lia..|].
    unfold on_a; cbn [gc_a gc_b gc_d]. rewrite Sa. unfold on_b; cbn [gc_a gc_b gc_d]. rewrite Sb.
    unfold on_d, full_set_len; cbn [gc_a gc_b gc_d]. eauto 10.
Qed.

Lemma full_ok_swap_out len a b mem id i ma na mb nb :
  ss_rep a ma na -> ss_rep b mb nb -> full_ok len a b mem -> i < len ->
  ss_get_index a id = Some i -> ss_get_index b id = Some i ->
  exists a' b', ss_swap_by_index i (len - 1) a = (Ret tt, a') /\ ss_swap_by_index i (len - 1) b = (Ret tt, b') /\
    ss_rep a' ma na /\ ss_rep b' mb nb /\ full_ok (len - 1) a' b' (mem ∖ {[id]}).
Proof.
  intros Ra Rb (La & Lb & T & ->) Hi Ha Hb.
  destruct (swap_by_index_rep i (len-1) a ma na Ra) as (a' & Sa & Ra' & Ena & Pa); [lia..|].
  destruct (swap_by_index_rep i (len-1) b mb nb Rb) as (b' & Sb & Rb' & Enb & Pb); [lia..|].
  exists a', b'. split_and!; try done.
  assert (take len (entities a') = swap_list (take len (entities a)) i (len - 1)) as Ta.
  { apply list_eq. intros k. rewrite Ena. destruct (decide (k < len)).
    - rewrite lookup_take by done. rewrite !swap_list_lookup by (rewrite ?take_length; lia).
      rewrite lookup_take; [done|]. unfold swapn. repeat case_decide; lia.
    - rewrite !lookup_ge_None_2; [done|rewrite swap_list_length, take_length; lia|rewrite take_length; lia]. }
  assert (take len (entities b') = swap_list (take len (entities b)) i (len - 1)) as Tb.
  { apply list_eq. intros k. rewrite Enb. destruct (decide (k < len)).
    - rewrite lookup_take by done. rewrite !swap_list_lookup by (rewrite ?take_length; lia).
      rewrite lookup_take; [done|]. unfold swapn. repeat case_decide; lia.
    - rewrite !lookup_ge_None_2; [done|rewrite swap_list_length, take_length; lia|rewrite take_length; lia]. }
  assert (length (entities a') = length (entities a)) as La' by (by rewrite Ena, swap_list_length).
  assert (length (entities b') = length (entities b)) as Lb' by (by rewrite Enb, swap_list_length).
  unfold full_ok. split_and!; [lia..| |].
  - replace (len - 1) with ((len - 1) `min` len) by lia. rewrite <- !take_take, Ta, Tb, T. done.
  - apply set_eq. intros e. rewrite elem_of_difference, !elem_of_list_to_set, elem_of_singleton.
    destruct (decide (is_Some (ss_get_index a e))) as [[k Hk]|Hn].
    + rewrite (elem_take_pos a e k len) by (done || apply Ra).
      assert (ss_get_index a' e = Some (swapn i (len - 1) k)) as Hk' by (by rewrite Pa, Hk).
      rewrite (elem_take_pos a' e _ (len - 1)) by (done || apply Ra' || lia).
      assert (e = id <-> k = i) as ->.
      { split; [intros ->; congruence|intros ->].
        apply (wf_pos a (rep_wf _ _ _ Ra)) in Hk, Ha. congruence. }
      unfold swapn. repeat case_decide; lia.
    + split.
      * intros [He _]. destruct Hn. apply elem_pos; [apply Ra|].
        eapply elem_of_take in He as (? & ? & ?). eapply elem_of_list_lookup_2; eauto.
      * intros He. destruct Hn.
        assert (e ∈ entities a') as He'.
        { eapply elem_of_take in He as (? & ? & ?). eapply elem_of_list_lookup_2; eauto. }
        apply (elem_pos a' e (rep_wf _ _ _ Ra')) in He'. rewrite Pa in He'.
        by rewrite fmap_is_Some in He'.
Qed.

Lemma full_remove_spec d a b mem id ma na mb nb :
  ss_rep a ma na -> ss_rep b mb nb -> full_ok (fd_len d) a b mem ->
  exists a' b' n', full_remove id (GC d a b) = (Ret tt, GC (FD n' (fd_a d) (fd_b d)) a' b') /\
    ss_rep a' ma na /\ ss_rep b' mb nb /\ full_ok n' a' b' (mem ∖ {[id]}).
Proof.
  intros Ra Rb H. pose proof (rep_wf _ _ _ Ra) as Wa. pose proof (rep_wf _ _ _ Rb) as Wb.
  unfold full_remove, bind, lift, get. cbn [gc_a gc_b gc_d].
  rewrite (full_in_group_spec d a b mem id Wa Wb H). case_bool_decide as C; simpl.
  2:{ exists a, b, (fd_len d). destruct d; simpl in *. split_and!; try done.
      replace (mem ∖ {[id]}) with mem by set_solver. done. }
  destruct (full_ok_elem _ _ _ _ _ Wa Wb H C) as [Ea Eb].
  apply (elem_pos a id Wa) in Ea as [ia Ha]. apply (elem_pos b id Wb) in Eb as [ib Hb].
  destruct (full_ok_pos _ _ _ _ _ _ _ Wa Wb H Ha Hb) as (P1 & P2 & P3).
  apply P3 in C. assert (ib = ia) as -> by (symmetry; auto).
  unfold unwrap. rewrite Ha, Hb. unfold ret, assert.
  rewrite (proj2 (Nat.ltb_lt 0 (fd_len d))) by lia. unfold ret.
  unfold on_d, full_set_len; cbn [gc_a gc_b gc_d fd_a fd_b].
  destruct (full_ok_swap_out _ _ _ _ id ia _ _ _ _ Ra Rb H C Ha Hb) as (a' & b' & Sa & Sb & Ra' & Rb' & Hok).
  unfold on_a; cbn [gc_a gc_b gc_d]. rewrite Sa. unfold on_b; cbn [gc_a gc_b gc_d]. rewrite Sb.
  eauto 10.
Qed.

(** A removal from a storage outside the prefix. *)
Lemma take_remove_ge s e i el n : ss_wf s -> ss_get_index s e = Some i ->
  n <= i -> take n (take (length (entities s) - 1) (<[i := el]> (entities s))) = take n (entities s).
Proof.
  intros W Hi Hn. apply (wf_pos s W) in Hi. apply lookup_lt_Some in Hi.
  rewrite take_take. rewrite Nat.min_l by lia. by rewrite take_insert.
Qed.

(** make *)
(** loop rule *)
Lemma for_range_inv {S} (f : nat -> M S unit) (I : nat -> S -> Prop) start n (s : S) :
  I start s ->
  (forall k (s : S), start <= k < start + n -> I k s -> exists s' : S, f k s = (Ret tt, s') /\ I (Datatypes.S k) s') ->
  exists s' : S, for_range start n f s = (Ret tt, s') /\ I (start + n) s'.
Proof.
  revert start s. induction n as [|n IH]; intros start s H0 Hstep; simpl.
  - exists s. by rewrite Nat.add_0_r.
  - destruct (Hstep start s) as (s1 & E1 & I1); [lia|done|]. unfold bind. rewrite E1.
    destruct (IH (Datatypes.S start) s1 I1) as (s2 & E2 & I2).
    + intros k s3 Hk. apply Hstep. lia.
    + exists s2. by rewrite <- Nat.add_succ_comm.
Qed.

(** the invariant of the make loop scanning the first storage *)
Definition makeA (ta tb : nat) (ma mb : gmap nat V) na nb (k : nat) (c : gctx V full_data) : Prop :=
  fd_a (gc_d c) = ta /\ fd_b (gc_d c) = tb /\
  ss_rep (gc_a c) ma na /\ ss_rep (gc_b c) mb nb /\ fd_len (gc_d c) <= k /\
  full_ok (fd_len (gc_d c)) (gc_a c) (gc_b c) (list_to_set (take (fd_len (gc_d c)) (entities (gc_a c)))) /\
  (forall j e, fd_len (gc_d c) <= j < k -> entities (gc_a c) !! j = Some e -> mb !! e = None).
Definition makeB (ta tb : nat) (ma mb : gmap nat V) na nb (k : nat) (c : gctx V full_data) : Prop :=
  fd_a (gc_d c) = ta /\ fd_b (gc_d c) = tb /\
  ss_rep (gc_a c) ma na /\ ss_rep (gc_b c) mb nb /\ fd_len (gc_d c) <= k /\
  full_ok (fd_len (gc_d c)) (gc_a c) (gc_b c) (list_to_set (take (fd_len (gc_d c)) (entities (gc_a c)))) /\
  (forall j e, fd_len (gc_d c) <= j < k -> entities (gc_b c) !! j = Some e -> ma !! e = None).

Lemma rep_None_pos s m n e : ss_rep s m n -> ss_get_index s e = None <-> m !! e = None.
Proof.
  intros R. rewrite !eq_None_not_Some, <- (rep_lookup _ _ _ R).
  rewrite (pos_lookup_is_Some s e (rep_wf _ _ _ R)). done.
Qed.
Lemma rep_Some_pos s m n e : ss_rep s m n -> is_Some (ss_get_index s e) <-> is_Some (m !! e).
Proof.
  intros R. rewrite <- (rep_lookup _ _ _ R). apply pos_lookup_is_Some, R.
Qed.

Lemma full_ok_mem_sub len a b mem ma na mb nb : ss_rep a ma na -> ss_rep b mb nb ->
  full_ok len a b mem -> mem ⊆ dom ma ∩ dom mb.
Proof.
  intros Ra Rb H e He. destruct (full_ok_elem _ _ _ _ e (rep_wf _ _ _ Ra) (rep_wf _ _ _ Rb) H He).
  rewrite elem_of_intersection, !elem_of_dom. split.
  - by eapply rep_elem.
  - by eapply rep_elem.
Qed.

Lemma full_make_spec d a b ma na mb nb :
  ss_rep a ma na -> ss_rep b mb nb ->
  exists a' b' n', full_make (GC d a b) = (Ret tt, GC (FD n' (fd_a d) (fd_b d)) a' b') /\
    ss_rep a' ma na /\ ss_rep b' mb nb /\ full_ok n' a' b' (dom ma ∩ dom mb).
Proof.
  intros Ra Rb. unfold full_make. unfold bind at 1.
  unfold on_d at 1, full_set_len at 1; cbn [gc_a gc_b gc_d].
  unfold bind at 1, get at 1. cbn [gc_a gc_b gc_d].
  assert (full_ok 0 a b ∅) as H0.
  { unfold full_ok. rewrite !take_0. split_and!; [lia..|done|done]. }
  destruct (ss_len a <? ss_len b) eqn:Hlt.
  - match goal with |- context [for_range 0 _ ?f ?c] =>
      destruct (for_range_inv f (makeA (fd_a d) (fd_b d) ma mb na nb) 0 (ss_len a) c) as (c' & E & Hinv) end.
    + split_and!; try done. simpl. intros; lia.
    + intros k [dk ak bk] Hk (I1 & I2 & I3 & I4 & I5 & I6 & I7). cbn [gc_a gc_b gc_d] in *; unfold ss_len in *.
      unfold bind at 1, get at 1. cbn [gc_a gc_b gc_d].
      assert (length (entities ak) = length (entities a)) as Lak.
      { rewrite (rep_perm _ _ _ I3), (rep_perm _ _ _ Ra). done. }
      destruct (lookup_lt_is_Some_2 (entities ak) k) as [id Hid]; [unfold ss_len in *; lia|].
      unfold bind at 1, unwrap at 1, ss_id. rewrite Hid. unfold ret at 1.
      destruct (ss_get_index bk id) as [ib|] eqn:Hb.
      * assert (ss_get_index ak id = Some k) as Ha by (by apply (wf_pos _ (rep_wf _ _ _ I3))).
        destruct (full_ok_pos _ _ _ _ _ _ _ (rep_wf _ _ _ I3) (rep_wf _ _ _ I4) I6 Ha Hb) as (P1 & P2 & P3).
        destruct (full_extend _ _ _ _ id k ib _ _ _ _ I3 I4 I6 Ha Hb) as (a' & b' & Sa & Sb & Ra' & Rb' & Hok & Ena & Enb); [lia..|].
        unfold bind, on_a; cbn [gc_a gc_b gc_d]. rewrite Sa. unfold on_b; cbn [gc_a gc_b gc_d]. rewrite Sb.
        unfold on_d, full_set_len; cbn [gc_a gc_b gc_d].
        eexists. split; [done|]. unfold makeA; cbn [gc_a gc_b gc_d fd_a fd_b fd_len].
        split_and!; try done; [lia| |].
        -- destruct Hok as (? & ? & ? & Hm). split_and!; try done.
        -- intros j e Hj. rewrite Ena. rewrite swap_list_lookup by lia. unfold swapn.
           repeat case_decide; intros He; try lia.
           ++ subst j. eapply I7; [|done]. lia.
           ++ eapply I7; [|done]. lia.
      * unfold ret. eexists. split; [done|]. unfold makeA; cbn [gc_a gc_b gc_d].
        split_and!; try done; [lia|].
        intros j e Hj He. destruct (decide (j = k)) as [->|].
        -- assert (e = id) as -> by congruence. by eapply rep_None_pos.
        -- eapply I7; [|done]. lia.
    + rewrite E. destruct c' as [d' a' b'], Hinv as (I1 & I2 & I3 & I4 & I5 & I6 & I7). cbn [gc_a gc_b gc_d] in *; unfold ss_len in *.
      exists a', b', (fd_len d'). destruct d' as [n' ta tb]; cbn [fd_a fd_b fd_len] in *. subst.
      split_and!; try done.
      assert (list_to_set (take n' (entities a')) = dom ma ∩ dom mb) as Heq.
      { apply set_eq. intros e. split.
        - intros He. eapply (full_ok_mem_sub _ _ _ _ _ _ _ _ I3 I4 I6 e). done.
        - rewrite elem_of_intersection, !elem_of_dom. intros [Hea Heb].
          pose proof Hea as Hea'. eapply (rep_Some_pos _ _ _ _ I3) in Hea' as [i Hi].
          rewrite elem_of_list_to_set, (elem_take_pos a' e i n') by (done || apply I3 || apply I6).
          destruct (decide (i < n')); [done|].
          assert (mb !! e = None) as Hn; [|rewrite Hn in Heb; by destruct Heb].
          apply (wf_pos _ (rep_wf _ _ _ I3)) in Hi. eapply (I7 i); [|done].
          apply lookup_lt_Some in Hi. rewrite (rep_perm _ _ _ I3), <- (rep_perm _ _ _ Ra) in Hi.
          unfold ss_len. lia. }
      rewrite <- Heq. done.
  - match goal with |- context [for_range 0 _ ?f ?c] =>
      destruct (for_range_inv f (makeB (fd_a d) (fd_b d) ma mb na nb) 0 (ss_len b) c) as (c' & E & Hinv) end.
    + split_and!; try done. simpl. intros; lia.
    + intros k [dk ak bk] Hk (I1 & I2 & I3 & I4 & I5 & I6 & I7). cbn [gc_a gc_b gc_d] in *; unfold ss_len in *.
      unfold bind at 1, get at 1. cbn [gc_a gc_b gc_d].
      assert (length (entities bk) = length (entities b)) as Lbk.
      { rewrite (rep_perm _ _ _ I4), (rep_perm _ _ _ Rb). done. }
      destruct (lookup_lt_is_Some_2 (entities bk) k) as [id Hid]; [unfold ss_len in *; lia|].
      unfold bind at 1, unwrap at 1, ss_id. rewrite Hid. unfold ret at 1.
      destruct (ss_get_index ak id) as [ia|] eqn:Ha.
      * assert (ss_get_index bk id = Some k) as Hb by (by apply (wf_pos _ (rep_wf _ _ _ I4))).
        destruct (full_ok_pos _ _ _ _ _ _ _ (rep_wf _ _ _ I3) (rep_wf _ _ _ I4) I6 Ha Hb) as (P1 & P2 & P3).
        destruct (full_extend _ _ _ _ id ia k _ _ _ _ I3 I4 I6 Ha Hb) as (a' & b' & Sa & Sb & Ra' & Rb' & Hok & Ena & Enb); [lia..|].
        unfold bind, on_a; cbn [gc_a gc_b gc_d]. rewrite Sa. unfold on_b; cbn [gc_a gc_b gc_d]. rewrite Sb.
        unfold on_d, full_set_len; cbn [gc_a gc_b gc_d].
        eexists. split; [done|]. unfold makeB; cbn [gc_a gc_b gc_d fd_a fd_b fd_len].
        split_and!; try done; [lia| |].
        -- destruct Hok as (? & ? & ? & Hm). split_and!; try done.
        -- intros j e Hj. rewrite Enb. rewrite swap_list_lookup by lia. unfold swapn.
           repeat case_decide; intros He; try lia.
           ++ subst j. eapply I7; [|done]. lia.
           ++ eapply I7; [|done]. lia.
      * unfold ret. eexists. split; [done|]. unfold makeB; cbn [gc_a gc_b gc_d].
        split_and!; try done; [lia|].
        intros j e Hj He. destruct (decide (j = k)) as [->|].
        -- assert (e = id) as -> by congruence. by eapply rep_None_pos.
        -- eapply I7; [|done]. lia.
    + rewrite E. destruct c' as [d' a' b'], Hinv as (I1 & I2 & I3 & I4 & I5 & I6 & I7). cbn [gc_a gc_b gc_d] in *; unfold ss_len in *.
      exists a', b', (fd_len d'). destruct d' as [n' ta tb]; cbn [fd_a fd_b fd_len] in *. subst.
      split_and!; try done.
      assert (list_to_set (take n' (entities a')) = dom ma ∩ dom mb) as Heq.
      { apply set_eq. intros e. split.
        - intros He. eapply (full_ok_mem_sub _ _ _ _ _ _ _ _ I3 I4 I6 e). done.
        - rewrite elem_of_intersection, !elem_of_dom. intros [Hea Heb].
          pose proof Heb as Heb'. eapply (rep_Some_pos _ _ _ _ I4) in Heb' as [i Hi].
          destruct I6 as (L1 & L2 & T & _). rewrite T.
          rewrite elem_of_list_to_set, (elem_take_pos b' e i n') by (done || apply I4).
          destruct (decide (i < n')); [done|].
          assert (ma !! e = None) as Hn; [|rewrite Hn in Hea; by destruct Hea].
          apply (wf_pos _ (rep_wf _ _ _ I4)) in Hi. eapply (I7 i); [|done].
          apply lookup_lt_Some in Hi. rewrite (rep_perm _ _ _ I4), <- (rep_perm _ _ _ Rb) in Hi.
          unfold ss_len. lia. }
      rewrite <- Heq. done.
Qed.

(** * Partial owning *)

Lemma part_ok_elem len a b mem e : part_ok len a b mem -> e ∈ mem -> e ∈ entities a /\ e ∈ entities b.
Proof.
  intros (La & -> & Hb) He. split; [|by apply Hb]. apply elem_of_list_to_set in He.
  eapply elem_of_take in He as (? & ? & ?). eapply elem_of_list_lookup_2; eauto.
Qed.
Lemma part_ok_pos len a b mem id ia : ss_wf a -> part_ok len a b mem ->
  ss_get_index a id = Some ia -> id ∈ mem <-> ia < len.
Proof.
  intros Wa (La & -> & _) Ha. rewrite elem_of_list_to_set. by apply elem_take_pos.
Qed.
Lemma part_in_group_spec d a b mem id : ss_wf a -> ss_wf b -> part_ok (pd_len d) a b mem ->
  part_in_group d a b id = Ret (bool_decide (id ∈ mem)).
Proof.
  intros Wa Wb H. unfold part_in_group. destruct (in_components a b id) eqn:E; simpl.
  - apply in_components_spec in E as [[ia Ha] [ib Hb]]. rewrite Ha. f_equal.
    rewrite (bool_decide_ext _ _ (part_ok_pos _ _ _ _ _ _ Wa H Ha)).
    case_bool_decide; [by apply Nat.ltb_lt|]. apply Nat.ltb_ge. lia.
  - f_equal. rewrite bool_decide_false; [done|]. intros Hm.
    destruct (part_ok_elem _ _ _ _ _ H Hm) as [Ha Hb].
    apply (elem_pos a id Wa) in Ha. apply (elem_pos b id Wb) in Hb.
    assert (in_components a b id = true); [by apply in_components_spec|congruence].
Qed.
Lemma part_extend len a b mem id ia ma na : ss_rep a ma na -> ss_wf b -> part_ok len a b mem ->
  ss_get_index a id = Some ia -> is_Some (ss_get_index b id) -> len <= ia ->
  exists a', ss_swap_by_index ia len a = (Ret tt, a') /\ ss_rep a' ma na /\
    part_ok (len + 1) a' b ({[id]} ∪ mem) /\ entities a' = swap_list (entities a) ia len.
Proof.
  intros Ra Wb (La & -> & Hb) Ha Hib Hia.
  pose proof Ha as Ea. apply (wf_pos a (rep_wf _ _ _ Ra)) in Ea. pose proof (lookup_lt_Some _ _ _ Ea).
  destruct (swap_by_index_rep ia len a ma na Ra) as (a' & Sa & Ra' & Ena & _); [lia..|].
  exists a'. split_and!; try done.
  unfold part_ok. rewrite Ena, swap_list_length, Nat.add_1_r. split_and!; [lia| |].
  - rewrite (take_S_swap _ _ _ id) by done. rewrite list_to_set_app_L. simpl. set_solver.
  - intros e. rewrite elem_of_union, elem_of_singleton. intros [->|He]; [by apply elem_pos|]. by apply Hb.
Qed.
Lemma part_add_spec d a b mem id ma na mb nb :
  ss_rep a ma na -> ss_rep b mb nb -> part_ok (pd_len d) a b mem ->
  exists a' n', part_add id (GC d a b) = (Ret tt, GC (PD n' (pd_a d) (pd_b d)) a' b) /\
    ss_rep a' ma na /\
    part_ok n' a' b (if bool_decide (is_Some (ma !! id)) && bool_decide (is_Some (mb !! id))
                      then {[id]} ∪ mem else mem).
Proof.
  intros Ra Rb H. pose proof (rep_wf _ _ _ Ra) as Wa. pose proof (rep_wf _ _ _ Rb) as Wb.
  unfold part_add. cbn [bind get gc_a gc_b gc_d].
  change (in_components a b id) with (ss_exist a id && ss_exist b id).
  rewrite <- (rep_exist _ _ _ id Ra), <- (rep_exist _ _ _ id Rb).
  fold (in_components a b id). destruct (in_components a b id) eqn:E; simpl.
  2:{ exists a, (pd_len d). destruct d. done. }
  unfold bind, lift. rewrite (part_in_group_spec d a b mem id Wa Wb H).
  apply in_components_spec in E as [[ia Ha] Hb].
  pose proof (part_ok_pos _ _ _ _ _ _ Wa H Ha) as P3.
  case_bool_decide as C.
  - exists a, (pd_len d). destruct d; simpl in *. split_and!; try done.
    replace ({[id]} ∪ mem) with mem by set_solver. done.
  - rewrite P3 in C. unfold unwrap. rewrite Ha. unfold ret.
    destruct (part_extend _ _ _ _ id ia _ _ Ra Wb H Ha Hb) as (a' & Sa & Ra' & Hok & _); [lia..|].
    unfold on_a; cbn [gc_a gc_b gc_d]. rewrite Sa.
    unfold on_d, part_set_len; cbn [gc_a gc_b gc_d]. eauto 10.
Qed.
Lemma part_remove_spec d a b mem id ma na mb nb :
  ss_rep a ma na -> ss_rep b mb nb -> part_ok (pd_len d) a b mem ->
  exists a' n', part_remove id (GC d a b) = (Ret tt, GC (PD n' (pd_a d) (pd_b d)) a' b) /\
    ss_rep a' ma na /\ part_ok n' a' b (mem ∖ {[id]}).
Proof.
  intros Ra Rb H. pose proof (rep_wf _ _ _ Ra) as Wa. pose proof (rep_wf _ _ _ Rb) as Wb.
  unfold part_remove, bind, lift, get. cbn [gc_a gc_b gc_d].
  rewrite (part_in_group_spec d a b mem id Wa Wb H). case_bool_decide as C; simpl.
  2:{ exists a, (pd_len d). destruct d; simpl in *. split_and!; try done.
      replace (mem ∖ {[id]}) with mem by set_solver. done. }
  destruct (part_ok_elem _ _ _ _ _ H C) as [Ea Eb].
  apply (elem_pos a id Wa) in Ea as [ia Ha].
  pose proof (part_ok_pos _ _ _ _ _ _ Wa H Ha) as P3. pose proof C as Cm. apply P3 in C.
  unfold unwrap. rewrite Ha. unfold ret, assert.
  rewrite (proj2 (Nat.ltb_lt 0 (pd_len d))) by lia. unfold ret.
  unfold on_d, part_set_len; cbn [gc_a gc_b gc_d pd_a pd_b].
  (* reuse the full-owning lemma with both storages equal *)
  destruct H as (La & Hm & Hb).
  destruct (full_ok_swap_out (pd_len d) a a mem id ia ma na ma na) as (a' & b' & Sa & _ & Ra' & _ & Hok); try done.
  unfold on_a; cbn [gc_a gc_b gc_d]. rewrite Sa.
  eexists _, _. split; [done|]. split; [done|]. destruct Hok as (L1 & _ & _ & Hm').
  split_and!; try done. intros e He. apply Hb. set_solver.
Qed.

Definition makeP (ta tb : nat) (ma : gmap nat V) na b (mb : gmap nat V) (k : nat) (c : gctx V part_data) : Prop :=
  pd_a (gc_d c) = ta /\ pd_b (gc_d c) = tb /\
  ss_rep (gc_a c) ma na /\ gc_b c = b /\ pd_len (gc_d c) <= k /\
  part_ok (pd_len (gc_d c)) (gc_a c) b (list_to_set (take (pd_len (gc_d c)) (entities (gc_a c)))) /\
  (forall j e, pd_len (gc_d c) <= j < k -> entities (gc_a c) !! j = Some e -> mb !! e = @None V).
Lemma part_make_spec d a b ma na mb nb :
  ss_rep a ma na -> ss_rep b mb nb ->
  exists a' n', part_make (GC d a b) = (Ret tt, GC (PD n' (pd_a d) (pd_b d)) a' b) /\
    ss_rep a' ma na /\ part_ok n' a' b (dom ma ∩ dom mb).
Proof.
  intros Ra Rb. unfold part_make. unfold bind at 1.
  unfold on_d at 1, part_set_len at 1; cbn [gc_a gc_b gc_d].
  unfold bind at 1, get at 1. cbn [gc_a gc_b gc_d].
  match goal with |- context [for_range 0 _ ?f ?c] =>
      destruct (for_range_inv f (makeP (pd_a d) (pd_b d) ma na b mb) 0 (ss_len a) c) as (c' & E & Hinv) end.
  - split_and!; try done. { split_and!; simpl; [lia|done|set_solver]. } simpl. intros; lia.
  - intros k [dk ak bk] Hk (I1 & I2 & I3 & I4 & I5 & I6 & I7). cbn [gc_a gc_b gc_d] in *; unfold ss_len in *. subst bk.
    unfold bind at 1, get at 1. cbn [gc_a gc_b gc_d].
    assert (length (entities ak) = length (entities a)) as Lak.
    { rewrite (rep_perm _ _ _ I3), (rep_perm _ _ _ Ra). done. }
    destruct (lookup_lt_is_Some_2 (entities ak) k) as [id Hid]; [unfold ss_len in *; lia|].
    unfold bind at 1, unwrap at 1, ss_id. rewrite Hid. unfold ret at 1.
    destruct (ss_exist b id) eqn:Hb.
    + assert (ss_get_index ak id = Some k) as Ha by (by apply (wf_pos _ (rep_wf _ _ _ I3))).
      apply exist_pos in Hb.
      destruct (part_extend _ _ _ _ id k _ _ I3 (rep_wf _ _ _ Rb) I6 Ha Hb) as (a' & Sa & Ra' & Hok & Ena); [lia..|].
      unfold bind, on_a; cbn [gc_a gc_b gc_d]. rewrite Sa.
      unfold on_d, part_set_len; cbn [gc_a gc_b gc_d].
      eexists. split; [done|]. unfold makeP; cbn [gc_a gc_b gc_d pd_a pd_b pd_len].
      split_and!; try done; [lia| |].
      * destruct Hok as (? & Hm & ?). split_and!; try done. by rewrite <- Hm.
      * intros j e Hj. rewrite Ena. rewrite swap_list_lookup by lia. unfold swapn.
        repeat case_decide; intros He; try lia.
        -- subst j. eapply I7; [|done]. lia.
        -- eapply I7; [|done]. lia.
    + unfold ret. eexists. split; [done|]. unfold makeP; cbn [gc_a gc_b gc_d].
      split_and!; try done; [lia|].
      intros j e Hj He. destruct (decide (j = k)) as [->|].
      * assert (e = id) as -> by congruence. apply exist_pos_false in Hb. by eapply rep_None_pos.
      * eapply I7; [|done]. lia.
  - rewrite E. destruct c' as [d' a' b'], Hinv as (I1 & I2 & I3 & I4 & I5 & I6 & I7). cbn [gc_a gc_b gc_d] in *; unfold ss_len in *.
    subst b'. exists a', (pd_len d'). destruct d' as [n' ta tb]; cbn [pd_a pd_b pd_len] in *. subst.
    split_and!; try done.
    assert (list_to_set (take n' (entities a')) = dom ma ∩ dom mb) as Heq.
    { apply set_eq. intros e. rewrite elem_of_intersection, !elem_of_dom. split.
      - intros He. destruct (part_ok_elem _ _ _ _ _ I6 He). split; by eapply rep_elem.
      - intros [Hea Heb].
        pose proof Hea as Hea'. eapply (rep_Some_pos _ _ _ _ I3) in Hea' as [i Hi].
        rewrite elem_of_list_to_set, (elem_take_pos a' e i n') by (done || apply I3 || apply I6).
        destruct (decide (i < n')); [done|].
        assert (mb !! e = None) as Hn; [|rewrite Hn in Heb; by destruct Heb].
        apply (wf_pos _ (rep_wf _ _ _ I3)) in Hi. eapply (I7 i); [|done].
        apply lookup_lt_Some in Hi. rewrite (rep_perm _ _ _ I3), <- (rep_perm _ _ _ Ra) in Hi.
        unfold ss_len. lia. }
    rewrite <- Heq. done.
Qed.

(** * Non owning *)

Lemma non_in_group_spec d a b mem fr id : ss_wf a -> ss_wf b -> non_ok (nd_set d) a b mem fr ->
  non_in_group d a b id = Ret (bool_decide (id ∈ mem)).
Proof.
  intros Wa Wb (W & Hm & Hs & _). unfold non_in_group. destruct (in_components a b id) eqn:E; simpl.
  - f_equal. rewrite (bool_decide_ext _ _ (Hm id)). case_bool_decide as C.
    + apply exist_pos. by apply elem_pos.
    + apply exist_pos_false. apply eq_None_not_Some. by rewrite <- elem_pos.
  - f_equal. rewrite bool_decide_false; [done|]. intros Hx.
    destruct (Hs _ Hx) as [Ha Hb].
    apply (elem_pos a id Wa) in Ha. apply (elem_pos b id Wb) in Hb.
    assert (in_components a b id = true); [by apply in_components_spec|congruence].
Qed.

Lemma non_insert g a b mem fr id ia ib : ss_wf a -> ss_wf b -> non_ok g a b mem fr ->
  ss_get_index a id = Some ia -> ss_get_index b id = Some ib ->
  exists g', ss_add id (ia, ib) g = (Ret tt, g') /\ non_ok g' a b ({[id]} ∪ mem) fr.
Proof.
  intros Wa Wb (W & Hm & Hs & Hf) Ha Hb.
  destruct (add_spec id (ia, ib) g W) as (g' & E & W' & L' & _ & _ & En & _).
  exists g'. split; [done|]. split_and!; try done.
  - intros e. rewrite elem_of_union, elem_of_singleton, Hm, En. destruct (ss_exist g id) eqn:Eg.
    + split; [intros [->|]|]; [|done|by right]. apply elem_pos; [done|]. by apply exist_pos.
    + rewrite elem_of_app, elem_of_list_singleton. tauto.
  - intros e. rewrite elem_of_union, elem_of_singleton. intros [->|He].
    + split; (apply elem_pos; [done|eauto]).
    + by apply Hs.
  - intros Hfr e ja jb. rewrite L'. case_decide as C; [intros [= <- <-]; by subst|].
    by apply Hf.
Qed.

Lemma non_add_spec d a b mem fr id ma na mb nb :
  ss_rep a ma na -> ss_rep b mb nb -> non_ok (nd_set d) a b mem fr ->
  exists g', non_add id (GC d a b) = (Ret tt, GC (ND g' (nd_a d) (nd_b d)) a b) /\
    non_ok g' a b (if bool_decide (is_Some (ma !! id)) && bool_decide (is_Some (mb !! id))
                      then {[id]} ∪ mem else mem) fr.
Proof.
  intros Ra Rb H. pose proof (rep_wf _ _ _ Ra) as Wa. pose proof (rep_wf _ _ _ Rb) as Wb.
  unfold non_add. cbn [bind get gc_a gc_b gc_d].
  change (in_components a b id) with (ss_exist a id && ss_exist b id).
  rewrite <- (rep_exist _ _ _ id Ra), <- (rep_exist _ _ _ id Rb).
  fold (in_components a b id). destruct (in_components a b id) eqn:E; simpl.
  2:{ exists (nd_set d). destruct d. done. }
  unfold bind, lift. rewrite (non_in_group_spec d a b mem fr id Wa Wb H).
  apply in_components_spec in E as [[ia Ha] [ib Hb]].
  case_bool_decide as C.
  - exists (nd_set d). destruct d; simpl in *. split; [done|].
    replace ({[id]} ∪ mem) with mem by set_solver. done.
  - unfold unwrap. rewrite Ha, Hb. unfold ret.
    destruct (non_insert _ _ _ _ _ id ia ib Wa Wb H Ha Hb) as (g' & E' & Hok).
    unfold on_d, on_nd; cbn [gc_a gc_b gc_d]. rewrite E'. eauto.
Qed.

Lemma non_delete g a b mem fr id : non_ok g a b mem fr -> id ∈ mem ->
  exists p g', ss_remove id g = (Ret (Some p), g') /\ non_ok g' a b (mem ∖ {[id]}) fr.
Proof.
  intros (W & Hm & Hs & Hf) Hid. apply Hm in Hid. apply (elem_pos g id W) in Hid as [i Hi].
  destruct (remove_spec id i g W Hi) as (p & g' & E & _ & W' & L' & _).
  exists p, g'. split; [done|]. split_and!; try done.
  - intros e. rewrite elem_of_difference, elem_of_singleton, Hm, !elem_lookup by done. rewrite L'.
    case_decide; subst; split; [tauto|intros [? [=]]|tauto|tauto].
  - intros e He. apply Hs. set_solver.
  - intros Hfr e ja jb. rewrite L'. case_decide; [done|]. by apply Hf.
Qed.

Lemma non_remove_spec d a b mem fr id ma na mb nb :
  ss_rep a ma na -> ss_rep b mb nb -> non_ok (nd_set d) a b mem fr ->
  exists g', non_remove id (GC d a b) = (Ret tt, GC (ND g' (nd_a d) (nd_b d)) a b) /\
    non_ok g' a b (mem ∖ {[id]}) fr.
Proof.
  intros Ra Rb H. pose proof (rep_wf _ _ _ Ra) as Wa. pose proof (rep_wf _ _ _ Rb) as Wb.
  unfold non_remove, bind, lift, get. cbn [gc_a gc_b gc_d].
  rewrite (non_in_group_spec d a b mem fr id Wa Wb H). case_bool_decide as C; simpl.
  2:{ exists (nd_set d). destruct d; simpl in *. split; [done|].
      replace (mem ∖ {[id]}) with mem by set_solver. done. }
  destruct (non_delete _ _ _ _ _ id H C) as (p & g' & E & Hok).
  unfold on_d, on_nd; cbn [gc_a gc_b gc_d]. rewrite E. simpl. eauto.
Qed.

Definition makeN (ta tb : nat) a b (scan : list nat) (k : nat) (c : gctx V non_data) : Prop :=
  nd_a (gc_d c) = ta /\ nd_b (gc_d c) = tb /\ gc_a c = a /\ gc_b c = b /\
  exists mem, non_ok (nd_set (gc_d c)) a b mem true /\
    (forall j e, j < k -> scan !! j = Some e -> e ∈ entities a -> e ∈ entities b -> e ∈ mem).

Lemma non_make_spec d a b ma na mb nb :
  ss_rep a ma na -> ss_rep b mb nb ->
  exists g', non_make (GC d a b) = (Ret tt, GC (ND g' (nd_a d) (nd_b d)) a b) /\
    non_ok g' a b (dom ma ∩ dom mb) true.
Proof.
  intros Ra Rb. pose proof (rep_wf _ _ _ Ra) as Wa. pose proof (rep_wf _ _ _ Rb) as Wb.
  unfold non_make. unfold bind at 1.
  unfold on_d at 1, on_nd at 1; cbn [gc_a gc_b gc_d]. unfold bind at 1, get at 1, put at 1.
  unfold bind at 1, get at 1. cbn [gc_a gc_b gc_d].
  assert (non_ok (ss_clear (nd_set d)) a b ∅ true) as H0.
  { split_and!; [apply wf_new|set_solver|set_solver|]. intros _ e ja jb. done. }
  assert (forall mem g', non_ok g' a b mem true ->
     (forall e, e ∈ entities a -> e ∈ entities b -> e ∈ mem) -> mem = dom ma ∩ dom mb) as Hfin.
  { intros mem g' (_ & _ & Hs & _) Hall. apply set_eq. intros e.
    rewrite elem_of_intersection, !elem_of_dom, <- (rep_elem _ _ _ _ Ra), <- (rep_elem _ _ _ _ Rb).
    split; [apply Hs|]. intros [? ?]. by apply Hall. }
  destruct (ss_len a <? ss_len b) eqn:Hlt.
  - match goal with |- context [for_range 0 _ ?f ?c] =>
      destruct (for_range_inv f (makeN (nd_a d) (nd_b d) a b (entities a)) 0 (ss_len a) c) as (c' & E & Hinv) end.
    + split_and!; try done. exists ∅. split; [done|]. intros; lia.
    + intros k [dk ak bk] Hk (I1 & I2 & I3 & I4 & mem & I5 & I6). cbn [gc_a gc_b gc_d] in *. subst ak bk.
      unfold bind at 1, get at 1. cbn [gc_a gc_b gc_d].
      destruct (lookup_lt_is_Some_2 (entities a) k) as [id Hid]; [unfold ss_len in *; lia|].
      unfold bind at 1, unwrap at 1, ss_id. rewrite Hid. unfold ret at 1.
      assert (ss_get_index a id = Some k) as Ha by (by apply (wf_pos _ Wa)).
      destruct (ss_get_index b id) as [ib|] eqn:Hb.
      * destruct (non_insert _ _ _ _ _ id k ib Wa Wb I5 Ha Hb) as (g' & E' & Hok).
        unfold on_d, on_nd; cbn [gc_a gc_b gc_d]. rewrite E'. eexists. split; [done|].
        split_and!; try done. exists ({[id]} ∪ mem). split; [done|].
        intros j e Hj He H1 H2. destruct (decide (j = k)) as [->|].
        -- assert (e = id) as -> by congruence. set_solver.
        -- apply elem_of_union. right. apply (I6 j); [lia|done..].
      * unfold ret. eexists. split; [done|]. split_and!; try done. exists mem. split; [done|].
        intros j e Hj He H1 H2. destruct (decide (j = k)) as [->|].
        -- assert (e = id) as -> by congruence. apply (elem_pos b id Wb) in H2. rewrite Hb in H2. by destruct H2.
        -- apply (I6 j); [lia|done..].
    + rewrite E. destruct c' as [d' a' b'], Hinv as (I1 & I2 & I3 & I4 & mem & I5 & I6). cbn [gc_a gc_b gc_d] in *; unfold ss_len in *.
      exists (nd_set d'). destruct d'; simpl in *. subst. split; [done|].
      rewrite <- (Hfin mem _ I5); [done|]. intros e H1 H2. apply elem_of_list_lookup in H1 as H1'.
      destruct H1' as [j Hj]. apply (I6 j); try done. by eapply lookup_lt_Some.
  - match goal with |- context [for_range 0 _ ?f ?c] =>
      destruct (for_range_inv f (makeN (nd_a d) (nd_b d) a b (entities b)) 0 (ss_len b) c) as (c' & E & Hinv) end.
    + split_and!; try done. exists ∅. split; [done|]. intros; lia.
    + intros k [dk ak bk] Hk (I1 & I2 & I3 & I4 & mem & I5 & I6). cbn [gc_a gc_b gc_d] in *. subst ak bk.
      unfold bind at 1, get at 1. cbn [gc_a gc_b gc_d].
      destruct (lookup_lt_is_Some_2 (entities b) k) as [id Hid]; [unfold ss_len in *; lia|].
      unfold bind at 1, unwrap at 1, ss_id. rewrite Hid. unfold ret at 1.
      assert (ss_get_index b id = Some k) as Hb by (by apply (wf_pos _ Wb)).
      destruct (ss_get_index a id) as [ia|] eqn:Ha.
      * destruct (non_insert _ _ _ _ _ id ia k Wa Wb I5 Ha Hb) as (g' & E' & Hok).
        unfold on_d, on_nd; cbn [gc_a gc_b gc_d]. rewrite E'. eexists. split; [done|].
        split_and!; try done. exists ({[id]} ∪ mem). split; [done|].
        intros j e Hj He H1 H2. destruct (decide (j = k)) as [->|].
        -- assert (e = id) as -> by congruence. set_solver.
        -- apply elem_of_union. right. apply (I6 j); [lia|done..].
      * unfold ret. eexists. split; [done|]. split_and!; try done. exists mem. split; [done|].
        intros j e Hj He H1 H2. destruct (decide (j = k)) as [->|].
        -- assert (e = id) as -> by congruence. apply (elem_pos a id Wa) in H1. rewrite Ha in H1. by destruct H1.
        -- apply (I6 j); [lia|done..].
    + rewrite E. destruct c' as [d' a' b'], Hinv as (I1 & I2 & I3 & I4 & mem & I5 & I6). cbn [gc_a gc_b gc_d] in *; unfold ss_len in *.
      exists (nd_set d'). destruct d'; simpl in *. subst. split; [done|].
      rewrite <- (Hfin mem _ I5); [done|]. intros e H1 H2. apply elem_of_list_lookup in H2 as H2'.
      destruct H2' as [j Hj]. apply (I6 j); try done. by eapply lookup_lt_Some.
Qed.

(** * Stability when the storages change *)

Lemma full_ok_keeps len a b a' b' mem :
  full_ok len a b mem -> take len (entities a') = take len (entities a) ->
  take len (entities b') = take len (entities b) -> full_ok len a' b' mem.
Proof.
  intros (La & Lb & T & ->) Ta Tb. unfold full_ok. rewrite Ta, Tb. split_and!; try done.
  - apply (f_equal length) in Ta. rewrite !take_length in Ta. lia.
  - apply (f_equal length) in Tb. rewrite !take_length in Tb. lia.
Qed.
Lemma part_ok_keeps len a b a' b' mem :
  part_ok len a b mem -> take len (entities a') = take len (entities a) ->
  (forall e, e ∈ mem -> e ∈ entities b -> e ∈ entities b') -> part_ok len a' b' mem.
Proof.
  intros (La & -> & Hb) Ta Tb. unfold part_ok. rewrite Ta. split_and!; try done.
  - apply (f_equal length) in Ta. rewrite !take_length in Ta. lia.
  - intros e He. apply Tb; [done|]. by apply Hb.
Qed.
Lemma non_ok_keeps g a b a' b' mem fr fr' :
  non_ok g a b mem fr ->
  (forall e, e ∈ mem -> e ∈ entities a -> e ∈ entities a') ->
  (forall e, e ∈ mem -> e ∈ entities b -> e ∈ entities b') ->
  (fr' = true -> fr = true /\ forall e, e ∈ mem -> ss_get_index a' e = ss_get_index a e /\ ss_get_index b' e = ss_get_index b e) ->
  non_ok g a' b' mem fr'.
Proof.
  intros (W & Hm & Hs & Hf) Ha Hb Hfr. split_and!; try done.
  - intros e He. destruct (Hs e He). split; [by apply Ha|by apply Hb].
  - intros Hx e ja jb HL. destruct (Hfr Hx) as [Hx' Hpos].
    assert (e ∈ mem) as He. { apply Hm. apply elem_lookup; [done|]. eauto. }
    destruct (Hpos e He) as [-> ->]. by apply Hf.
Qed.

End group.

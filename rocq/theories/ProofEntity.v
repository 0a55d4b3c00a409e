(** Proofs about the entity manager model. *)
From stdpp Require Import prelude list gmap.
From Verif Require Import Base ModelEntity.

(** The chain of removed ids threaded through the flag table, starting at
    slot [cur]; its last link is [Unavail 0], inherited from slot 0. *)
Fixpoint chain (fl : list flag) (cur : nat) (free : list nat) : Prop :=
  match free with
  | [] => fl !! cur = Some (Unavail 0)
  | f :: fs => fl !! cur = Some (Avail f) /\ chain fl f fs
  end.

Record em_rel (e : em) (next : nat) (free : list nat) : Prop := {
  er_len : length (flags e) = S next;
  er_perm : ents e ++ free ≡ₚ seq 1 next;
  er_idx : forall i x, ents e !! i = Some x -> flags e !! x = Some (Unavail i);
  er_chain : chain (flags e) 0 free
}.

Lemma em_rel_new : em_rel em_new 0 [].
Proof. by split. Qed.

Lemma er_nodup e n free : em_rel e n free -> NoDup (ents e ++ free).
Proof. intros H. rewrite (er_perm _ _ _ H). apply NoDup_seq. Qed.
Lemma er_elem e n free x : em_rel e n free -> (x ∈ ents e \/ x ∈ free) <-> 1 <= x <= n.
Proof.
  intros H. rewrite <- elem_of_app, (er_perm _ _ _ H), elem_of_seq. lia.
Qed.
Lemma er_disj e n free x : em_rel e n free -> x ∈ ents e -> x ∈ free -> False.
Proof. intros H. pose proof (er_nodup _ _ _ H) as N. apply NoDup_app in N as (_ & N & _). intros A B. by apply (N x). Qed.

Lemma chain_ext fl fl' cur free :
  (forall x, x = cur \/ x ∈ free -> fl' !! x = fl !! x) -> chain fl cur free -> chain fl' cur free.
Proof.
  revert cur. induction free as [|f fs IH]; intros cur H; simpl.
  - rewrite H; [done|]. by left.
  - intros [H1 H2]. rewrite H by (by left). split; [done|]. apply IH; [|done].
    intros x [->|Hx]; apply H; right; [left|by right].
Qed.

(** Flags of waiting ids: [Avail] for all but the last, [Unavail 0] for it. *)
Lemma chain_flags fl cur free x : chain fl cur free -> NoDup free -> x ∈ free ->
  (last free = Some x -> fl !! x = Some (Unavail 0)) /\
  (last free <> Some x -> exists y, fl !! x = Some (Avail y)).
Proof.
  revert cur. induction free as [|f fs IH]; intros cur; simpl; [by rewrite elem_of_nil|].
  intros [H1 H2] ND Hx. apply NoDup_cons in ND as [Hnin ND].
  destruct fs as [|g gs].
  - apply elem_of_list_singleton in Hx as ->. simpl. split; [done|]. intros H. by destruct H.
  - rewrite last_cons_cons. apply elem_of_cons in Hx as [->|Hx].
    + split.
      * intros H. apply last_Some in H as [l' H]. destruct Hnin. rewrite H. set_solver.
      * intros _. destruct H2 as [H2 _]. eauto.
    + by apply (IH f).
Qed.

Lemma em_has_spec e n free id : em_rel e n free -> 1 <= id ->
  em_has e id = if decide (n < id) then Panic
                else Ret (bool_decide (id ∉ free \/ last free = Some id)).
Proof.
  intros H Hid. unfold em_has. case_decide as Hn.
  - rewrite lookup_ge_None_2; [done|]. rewrite (er_len _ _ _ H). lia.
  - destruct (decide (id ∈ free)) as [Hf|Hf].
    + assert (NoDup free) as ND. { pose proof (er_nodup _ _ _ H) as N. apply NoDup_app in N. tauto. }
      destruct (chain_flags _ _ _ id (er_chain _ _ _ H) ND Hf) as [H1 H2].
      destruct (decide (last free = Some id)) as [Hl|Hl].
      * rewrite H1 by done. by rewrite bool_decide_true by (by right).
      * destruct H2 as [y ->]; [done|]. rewrite bool_decide_false; [done|]. tauto.
    + assert (id ∈ ents e) as He. { destruct (proj2 (er_elem _ _ _ id H)); [lia|done|done]. }
      apply elem_of_list_lookup in He as [i Hi]. apply (er_idx _ _ _ H) in Hi. rewrite Hi.
      by rewrite bool_decide_true by (by left).
Qed.

Lemma em_allocate_spec e n free : em_rel e n free ->
  exists e', em_allocate e = (Ret (match free with f :: _ => f | [] => S n end), e') /\
    em_rel e' (match free with [] => S n | _ => n end) (tail free).
Proof.
  intros H. pose proof (er_chain _ _ _ H) as C. unfold em_allocate, bind, get, put, unwrap, ret; simpl.
  destruct free as [|f fs]; simpl in C.
  - rewrite C. simpl. eexists. rewrite (er_len _ _ _ H). split; [done|].
    rewrite app_length; simpl. replace (length (ents e) + 1 - 1) with (length (ents e)) by lia.
    pose proof (er_perm _ _ _ H) as P. rewrite app_nil_r in P.
    split; simpl.
    + rewrite app_length, (er_len _ _ _ H); simpl. lia.
    + rewrite app_nil_r. rewrite P. change (S (n + 0)) with (1 + n + 0) || idtac.
      replace (1 :: seq 2 n) with (seq 1 (S n)) by done. by rewrite seq_S.
    + intros i x Hx. apply lookup_app_Some in Hx as [Hx|[Hi Hx]].
      * apply (er_idx _ _ _ H) in Hx. rewrite lookup_app_l; [done|]. by eapply lookup_lt_Some.
      * apply list_lookup_singleton_Some in Hx as [Hx <-]. assert (i = length (ents e)) as -> by lia.
        rewrite lookup_app_r by (rewrite (er_len _ _ _ H); lia).
        rewrite (er_len _ _ _ H), Nat.sub_diag. done.
    + rewrite lookup_app_l; [done|]. rewrite (er_len _ _ _ H). lia.
  - destruct C as [C0 C]. rewrite C0. simpl.
    pose proof (er_elem _ _ _ f H) as Hf. destruct Hf as [Hf _]. specialize (Hf (or_intror (elem_of_list_here _ _))).
    pose proof (er_nodup _ _ _ H) as ND. apply NoDup_app in ND as (ND1 & ND2 & ND3).
    apply NoDup_cons in ND3 as [Hnf ND3].
    assert (f < length (flags e)) as Lf by (rewrite (er_len _ _ _ H); lia).
    destruct (lookup_lt_is_Some_2 _ _ Lf) as [nf Hnf']. rewrite Hnf'. simpl.
    unfold vec_set. rewrite Hnf'. simpl.
    rewrite list_lookup_insert_ne by lia. rewrite C0. simpl.
    eexists. split; [done|].
    rewrite app_length; simpl. replace (length (ents e) + 1 - 1) with (length (ents e)) by lia.
    split; simpl.
    + by rewrite !insert_length, (er_len _ _ _ H).
    + rewrite <- app_assoc. simpl. apply (er_perm _ _ _ H).
    + intros i x Hx. apply lookup_app_Some in Hx as [Hx|[Hi Hx]].
      * assert (x ∈ ents e) as Hxe by (eapply elem_of_list_lookup_2; eauto).
        assert (1 <= x <= n) by (eapply er_elem; eauto).
        rewrite list_lookup_insert_ne by lia. rewrite list_lookup_insert_ne.
        -- by apply (er_idx _ _ _ H).
        -- intros ->. apply (ND2 x Hxe). left.
      * apply list_lookup_singleton_Some in Hx as [Hx <-]. assert (i = length (ents e)) as -> by lia.
        rewrite list_lookup_insert_ne by lia. by rewrite list_lookup_insert.
    + assert (forall y, y ∈ fs -> 1 <= y <= n /\ y <> f) as Hfs.
      { intros y Hy. split; [eapply er_elem; eauto; right; by right|]. by intros ->. }
      destruct fs as [|g gs]; simpl in C |- *.
      * rewrite list_lookup_insert by (rewrite insert_length, (er_len _ _ _ H); lia). congruence.
      * destruct C as [Cf C]. rewrite list_lookup_insert by (rewrite insert_length, (er_len _ _ _ H); lia).
        split; [congruence|]. eapply chain_ext; [|done]. intros x Hx.
        assert (x ∈ g :: gs) as Hx' by (destruct Hx as [->|]; [left|by right]).
        destruct (Hfs x Hx'). by rewrite !list_lookup_insert_ne by lia.
Qed.

Lemma em_allocate_n_spec e n free k : em_rel e n free ->
  exists e', em_allocate_n k e = (Ret (S n, S n + k), e') /\ em_rel e' (n + k) free.
Proof.
  intros H. unfold em_allocate_n, bind, get, put, ret; simpl.
  rewrite (er_len _ _ _ H). eexists. split; [done|]. split; simpl.
  - rewrite app_length, map_length, seq_length, (er_len _ _ _ H). lia.
  - rewrite seq_app, <- (er_perm _ _ _ H). rewrite <- !app_assoc. f_equiv. simpl. apply Permutation_app_comm.
  - intros i x Hx. apply lookup_app_Some in Hx as [Hx|[Hi Hx]].
    + apply (er_idx _ _ _ H) in Hx. rewrite lookup_app_l; [done|]. by eapply lookup_lt_Some.
    + apply lookup_seq in Hx as [-> Hx].
      rewrite lookup_app_r by (rewrite (er_len _ _ _ H); lia). rewrite (er_len _ _ _ H).
      rewrite list_lookup_fmap. rewrite lookup_seq_lt by lia. simpl. do 2 f_equal. lia.
  - pose proof (er_chain _ _ _ H) as C. eapply chain_ext; [|done].
    intros x Hx. rewrite lookup_app_l; [done|]. rewrite (er_len _ _ _ H).
    destruct Hx as [->|Hx]; [lia|]. assert (1 <= x <= n) by (eapply er_elem; eauto). lia.
Qed.

Lemma em_remove_spec e n free id : em_rel e n free -> 1 <= id <= n -> id ∉ free ->
  exists e', em_remove id e = (Ret tt, e') /\ em_rel e' n (id :: free).
Proof.
  intros H Hid Hnf.
  assert (id ∈ ents e) as He. { destruct (proj2 (er_elem _ _ _ id H)); [lia|done|done]. }
  apply elem_of_list_lookup in He as [i Hi].
  pose proof (er_idx _ _ _ H _ _ Hi) as Fi.
  unfold em_remove, bind, get, put, unwrap, ret; simpl. rewrite Fi. simpl.
  destruct (last (ents e)) as [l|] eqn:El; simpl.
  2:{ apply last_None in El. rewrite El in Hi. done. }
  assert (ents e !! (length (ents e) - 1) = Some l) as Hl.
  { rewrite last_lookup in El. by replace (length (ents e) - 1) with (pred (length (ents e))) by lia. }
  pose proof (er_idx _ _ _ H _ _ Hl) as Fl.
  unfold vec_set. rewrite Fl. simpl.
  pose proof (lookup_lt_Some _ _ _ Hi) as Li.
  pose proof (lookup_lt_Some _ _ _ Fi) as Lid. pose proof (lookup_lt_Some _ _ _ Fl) as Ll.
  unfold vec_swap_remove. rewrite Hi, El. simpl.
  assert (1 <= l <= n) as Hln. { eapply er_elem; eauto. left. eapply elem_of_list_lookup_2; eauto. }
  rewrite list_lookup_insert_ne by lia.
  destruct (lookup_lt_is_Some_2 (flags e) 0) as [f0 Hf0]; [rewrite (er_len _ _ _ H); lia|].
  rewrite Hf0. simpl.
  destruct (lookup_lt_is_Some_2 (<[l:=Unavail i]> (flags e)) id) as [fid Hfid]; [by rewrite insert_length|].
  rewrite Hfid. simpl.
  rewrite list_lookup_insert_ne by lia. rewrite list_lookup_insert_ne by lia. rewrite Hf0. simpl.
  eexists. split; [done|].
  pose proof (er_nodup _ _ _ H) as ND. apply NoDup_app in ND as (ND1 & ND2 & ND3).
  assert (l ∉ free) as Hlf. { apply ND2. eapply elem_of_list_lookup_2; eauto. }
  set (m := length (ents e)) in *.
  assert (take (m - 1) (<[i:=l]> (ents e)) ++ [id] ≡ₚ ents e) as Pm.
  { destruct (ents e) as [|e0 es _] using rev_ind; [done|]. rewrite last_snoc in El. injection El as ->.
    unfold m in *. rewrite app_length in *. simpl in *.
    replace (length es + 1 - 1) with (length es) in * by lia.
    destruct (decide (i = length es)) as [->|Hne].
    - rewrite list_lookup_middle in Hi by done. injection Hi as ->.
      rewrite insert_app_r_alt by lia. rewrite Nat.sub_diag. simpl. by rewrite take_app.
    - rewrite insert_app_l by lia. rewrite take_app_alt by (by rewrite insert_length).
      rewrite lookup_app_l in Hi by lia.
      rewrite <- (take_drop_middle es i id Hi) at 2.
      rewrite insert_take_drop by lia. rewrite <- !app_assoc. f_equiv. simpl.
      rewrite <- !Permutation_cons_append. apply perm_swap. }
  assert (forall k x, take (m - 1) (<[i:=l]> (ents e)) !! k = Some x ->
            (k = i /\ x = l) \/ (k <> i /\ x <> l /\ ents e !! k = Some x)) as Hk.
  { intros k x Hkx. destruct (decide (k < m - 1)) as [Hlt|Hge].
    - rewrite lookup_take in Hkx by done. destruct (decide (k = i)) as [->|Hne].
      + rewrite list_lookup_insert in Hkx by done. left. split; congruence.
      + rewrite list_lookup_insert_ne in Hkx by done. right. split_and!; try done.
        intros ->. assert (k = m - 1); [|lia]. exact (NoDup_lookup _ _ _ _ ND1 Hkx Hl).
    - rewrite lookup_ge_None_2 in Hkx; [done|]. rewrite take_length, insert_length. lia. }
  split; simpl.
  - by rewrite !insert_length, (er_len _ _ _ H).
  - rewrite <- (er_perm _ _ _ H). change (id :: free) with ([id] ++ free). rewrite app_assoc. by apply Permutation_app_tail.
  - intros k x Hkx.
    assert (x <> id) as Hxid.
    { intros ->. assert (NoDup (take (m - 1) (<[i:=l]> (ents e)) ++ [id])) as N by (by rewrite Pm).
      apply NoDup_app in N as (_ & N & _). apply (N id); [|left]. eapply elem_of_list_lookup_2; eauto. }
    assert (1 <= x <= n) as Hxn.
    { eapply er_elem; eauto. left. destruct (Hk k x Hkx) as [[-> ->]|(_ & _ & Hx)];
      eapply elem_of_list_lookup_2; eauto. }
    rewrite list_lookup_insert_ne by lia. rewrite list_lookup_insert_ne by done.
    destruct (Hk k x Hkx) as [[-> ->]|(Hne & Hxl & Hx)].
    + by rewrite list_lookup_insert.
    + rewrite list_lookup_insert_ne by done. by apply (er_idx _ _ _ H).
  - rewrite list_lookup_insert by (rewrite !insert_length, (er_len _ _ _ H); lia). split; [done|].
    pose proof (er_chain _ _ _ H) as C.
    assert (forall y, y ∈ free -> 1 <= y <= n /\ y <> id /\ y <> l) as Hfs.
    { intros y Hy. split; [eapply er_elem; eauto|]. split; by intros ->. }
    destruct free as [|g gs]; simpl in C |- *.
    + rewrite list_lookup_insert_ne by lia. rewrite list_lookup_insert by (by rewrite insert_length). congruence.
    + destruct C as [Cf C]. rewrite list_lookup_insert_ne by lia.
      rewrite list_lookup_insert by (by rewrite insert_length). split; [congruence|].
      eapply chain_ext; [|done]. intros x Hx.
      assert (x ∈ g :: gs) as Hx' by (destruct Hx as [->|]; [left|by right]).
      destruct (Hfs x Hx') as (? & ? & ?). by rewrite !list_lookup_insert_ne by lia.
Qed.

(** Removing an id whose flag is [Avail] silently does nothing. *)
Lemma em_remove_avail e id y : flags e !! id = Some (Avail y) -> em_remove id e = (Ret tt, e).
Proof. intros H. unfold em_remove, bind, get, unwrap, ret; simpl. by rewrite H. Qed.

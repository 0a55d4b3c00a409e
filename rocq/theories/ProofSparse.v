(** Proofs about the sparse set model. *)
From stdpp Require Import prelude list gmap.
From Verif Require Import Base ModelSparse.

Section sparse.
Context {V : Type}.
Implicit Types s : sset V.

(** Dense part and index table agree. *)
Record ss_wf s : Prop := {
  wf_len : length (entities s) = length (sdata s);
  wf_pos : forall e i, ss_get_index s e = Some i <-> entities s !! i = Some e;
  wf_nz : forall e, indices s !! e <> Some (Some 0)
}.

(** The value stored for [e]. *)
Definition ss_lookup s (e : nat) : option V :=
  match ss_get_index s e with Some i => sdata s !! i | None => None end.

(** A sparse set that represents a finite map, with [n] index slots. *)
Record ss_rep s (m : gmap nat V) (n : nat) : Prop := {
  rep_wf : ss_wf s;
  rep_lookup : forall e, ss_lookup s e = m !! e;
  rep_slots : length (indices s) = n
}.

Lemma wf_new : ss_wf (@ss_new V).
Proof. split; simpl; auto; intros; unfold ss_get_index; simpl; rewrite ?lookup_nil; naive_solver. Qed.
Lemma rep_new : ss_rep (@ss_new V) ∅ 0.
Proof. split; [apply wf_new| |done]. intros e. by rewrite lookup_empty. Qed.

Lemma wf_nodup s : ss_wf s -> NoDup (entities s).
Proof.
  intros W. apply NoDup_alt. intros i j e Hi Hj.
  apply (wf_pos s W) in Hi, Hj. congruence.
Qed.
Lemma wf_idx s e i : ss_wf s -> entities s !! i = Some e -> indices s !! e = Some (Some (i + 1)).
Proof.
  intros W H. pose proof H as H'. apply (wf_pos s W) in H'. unfold ss_get_index in H'.
  destruct (indices s !! e) as [[[|k]|]|] eqn:E; try done.
  - by destruct (wf_nz s W e).
  - injection H' as <-. do 2 f_equal. lia.
Qed.
Lemma wf_idx_inv s e k : ss_wf s -> indices s !! e = Some (Some k) -> 0 < k /\ entities s !! (k - 1) = Some e.
Proof.
  intros W H. destruct k; [by destruct (wf_nz s W e)|]. split; [lia|].
  apply (wf_pos s W). unfold ss_get_index. by rewrite H.
Qed.
Lemma wf_ent_lt s e i : ss_wf s -> entities s !! i = Some e -> e < length (indices s).
Proof. intros W H. apply (wf_idx s e i W) in H. eapply lookup_lt_Some; eauto. Qed.
Lemma wf_sdata_lt s i : ss_wf s -> i < length (entities s) <-> i < length (sdata s).
Proof. intros W. by rewrite (wf_len s W). Qed.

Lemma exist_pos s e : ss_exist s e = true <-> is_Some (ss_get_index s e).
Proof.
  unfold ss_exist, ss_get_index. destruct (indices s !! e) as [[k|]|];
    (split; [intros H; first [done | by eexists] | intros [? H]; done]).
Qed.
Lemma exist_pos_false s e : ss_exist s e = false <-> ss_get_index s e = None.
Proof.
  unfold ss_exist, ss_get_index. by destruct (indices s !! e) as [[k|]|].
Qed.
Lemma pos_lookup_is_Some s e : ss_wf s -> is_Some (ss_get_index s e) <-> is_Some (ss_lookup s e).
Proof.
  intros W. unfold ss_lookup. destruct (ss_get_index s e) as [i|] eqn:E; [|split; by intros [? ?]].
  split; [|eauto]. intros _. apply (wf_pos s W) in E. apply lookup_lt_is_Some.
  rewrite <- (wf_len s W). eapply lookup_lt_Some; eauto.
Qed.
Lemma exist_lookup s e : ss_wf s -> ss_exist s e = true <-> is_Some (ss_lookup s e).
Proof. intros W. rewrite exist_pos. by apply pos_lookup_is_Some. Qed.
Lemma exist_lookup_false s e : ss_wf s -> ss_exist s e = false <-> ss_lookup s e = None.
Proof.
  intros W. pose proof (exist_lookup s e W) as H.
  destruct (ss_exist s e), (ss_lookup s e); split; intros; try done.
  - destruct H as [H _]. destruct (H eq_refl). done.
  - destruct H as [_ H]. discriminate H. eauto.
Qed.
Lemma elem_pos s e : ss_wf s -> e ∈ entities s <-> is_Some (ss_get_index s e).
Proof.
  intros W. rewrite elem_of_list_lookup. split.
  - intros [i Hi]. apply (wf_pos s W) in Hi. eauto.
  - intros [i Hi]. apply (wf_pos s W) in Hi. eauto.
Qed.
Lemma elem_lookup s e : ss_wf s -> e ∈ entities s <-> is_Some (ss_lookup s e).
Proof. intros W. rewrite elem_pos by done. by apply pos_lookup_is_Some. Qed.

Lemma rep_exist s m n e : ss_rep s m n -> ss_exist s e = bool_decide (is_Some (m !! e)).
Proof.
  intros [W L _]. rewrite <- L. case_bool_decide as H.
  - by apply exist_lookup.
  - apply exist_lookup_false; [done|]. by apply eq_None_not_Some.
Qed.
Lemma rep_elem s m n e : ss_rep s m n -> e ∈ entities s <-> is_Some (m !! e).
Proof. intros [W L _]. rewrite <- L. by apply elem_lookup. Qed.
Lemma rep_dom s m n : ss_rep s m n -> list_to_set (entities s) = dom m.
Proof.
  intros H. apply set_eq. intros e. rewrite elem_of_list_to_set, elem_of_dom. by eapply rep_elem.
Qed.
Lemma rep_perm s m n : ss_rep s m n -> entities s ≡ₚ (map_to_list m).*1.
Proof.
  intros H. apply NoDup_Permutation; [apply wf_nodup, H|apply NoDup_fst_map_to_list|].
  intros e. rewrite (rep_elem _ _ _ _ H), elem_of_list_fmap. split.
  - intros [v Hv]. exists (e, v). split; [done|]. by apply elem_of_map_to_list.
  - intros [[e' v] [-> Hv]]. apply elem_of_map_to_list in Hv. eauto.
Qed.
Lemma rep_len s m n : ss_rep s m n -> ss_len s = size m.
Proof.
  intros H. unfold ss_len. rewrite (rep_perm s m n H), fmap_length.
  by rewrite map_to_list_length || (unfold size, map_size).
Qed.
Lemma rep_zip s m n : ss_rep s m n -> zip (entities s) (sdata s) ≡ₚ map_to_list m.
Proof.
  intros H. pose proof (rep_wf _ _ _ H) as W. apply NoDup_Permutation.
  - apply (NoDup_fmap_1 fst). rewrite fst_zip by (rewrite (wf_len s W); done). by apply wf_nodup.
  - apply NoDup_map_to_list.
  - intros [e v]. rewrite elem_of_map_to_list, <- (rep_lookup _ _ _ H), elem_of_list_lookup.
    unfold ss_lookup. split.
    + intros [i Hi]. rewrite lookup_zip_with in Hi.
      destruct (entities s !! i) as [e'|] eqn:E; [|done]. simpl in Hi.
      destruct (sdata s !! i) as [v'|] eqn:D; [|done]. simpl in Hi. injection Hi as -> ->.
      apply (wf_pos s W) in E. by rewrite E.
    + destruct (ss_get_index s e) as [i|] eqn:E; [|done]. intros D. exists i.
      apply (wf_pos s W) in E. by rewrite lookup_zip_with, E, D.
Qed.
Lemma rep_data s m n : ss_rep s m n -> sdata s ≡ₚ (map_to_list m).*2.
Proof.
  intros H. rewrite <- (rep_zip s m n H). rewrite snd_zip; [done|].
  by rewrite (wf_len s (rep_wf _ _ _ H)).
Qed.

(** ** Operations *)

Lemma grow_lookup ind e x : grow ind e !! x =
  match ind !! x with Some o => Some o | None => if decide (x <= e /\ length ind <= x) then Some None else None end.
Proof.
  unfold grow. destruct (decide (x < length ind)) as [L|L].
  - rewrite lookup_app_l by done. destruct (lookup_lt_is_Some_2 ind x L) as [o ->]. done.
  - rewrite lookup_app_r by lia. rewrite (lookup_ge_None_2 ind) by lia.
    case_decide.
    + rewrite lookup_replicate_2 by lia. done.
    + apply lookup_ge_None_2. rewrite replicate_length. lia.
Qed.
Lemma grow_length ind e : length (grow ind e) = length ind `max` S e.
Proof. unfold grow. rewrite app_length, replicate_length. lia. Qed.
Lemma get_index_grow s e x d en :
  ss_get_index (SS (grow (indices s) e) en d : sset V) x = ss_get_index s x.
Proof.
  unfold ss_get_index. simpl. rewrite grow_lookup. destruct (indices s !! x); [done|].
  by case_decide.
Qed.

Lemma add_spec e v s : ss_wf s ->
  exists s', ss_add e v s = (Ret tt, s') /\ ss_wf s' /\
    (forall x, ss_lookup s' x = if decide (x = e) then Some v else ss_lookup s x) /\
    length (indices s') = length (indices s) `max` S e /\
    (forall x, x <> e -> ss_get_index s' x = ss_get_index s x) /\
    entities s' = (if ss_exist s e then entities s else entities s ++ [e]) /\
    (ss_exist s e = true -> ss_get_index s' e = ss_get_index s e) /\
    sdata s' = (match ss_get_index s e with Some i => <[i := v]> (sdata s) | None => sdata s ++ [v] end).
Proof.
  intros W. unfold ss_add, bind, get, put, unwrap, ret; simpl.
  rewrite grow_lookup. destruct (indices s !! e) as [[k|]|] eqn:E; simpl.
  - destruct (wf_idx_inv s e k W E) as [Hk Hent].
    assert (k - 1 < length (sdata s)) as Hlt.
    { rewrite <- (wf_len s W). eapply lookup_lt_Some; eauto. }
    unfold vec_set. destruct (lookup_lt_is_Some_2 _ _ Hlt) as [y ->]. simpl.
    eexists. split; [done|].
    assert (ss_exist s e = true) as He by (unfold ss_exist; by rewrite E).
    assert (ss_get_index s e = Some (k - 1)) as Hi by (unfold ss_get_index; by rewrite E).
    rewrite He, Hi. split_and!; try done.
    + split; simpl.
      * by rewrite insert_length, (wf_len s W).
      * intros x i. rewrite get_index_grow. apply (wf_pos s W).
      * intros x. rewrite grow_lookup. destruct (indices s !! x) eqn:Ex.
        -- rewrite <- Ex. apply (wf_nz s W).
        -- by case_decide.
    + intros x. unfold ss_lookup. rewrite get_index_grow. simpl.
      destruct (decide (x = e)) as [->|Hne].
      * rewrite Hi. by rewrite list_lookup_insert.
      * destruct (ss_get_index s x) as [i|] eqn:Ex; [|done].
        apply list_lookup_insert_ne. intros <-.
        apply (wf_pos s W) in Ex. congruence.
    + simpl. apply grow_length.
    + intros x _. apply get_index_grow.
    + intros _. by rewrite get_index_grow.
  - assert (ss_get_index s e = None) as Hi by (unfold ss_get_index; by rewrite E).
    assert (ss_exist s e = false) as He by (by apply exist_pos_false).
    assert (e < length (indices s)) as Hlt by (eapply lookup_lt_Some; eauto).
    eexists. split; [done|]. rewrite He, Hi.
    assert (e ∉ entities s) as Hnin.
    { intros H. apply (elem_pos s e W) in H. rewrite Hi in H. by destruct H. }
    split_and!; try done.
    + split; simpl.
      * rewrite !app_length, (wf_len s W). done.
      * intros x i. unfold ss_get_index; simpl.
        destruct (decide (x = e)) as [->|Hne].
        -- rewrite list_lookup_insert by (rewrite grow_length; lia).
           replace (length (entities s) + 1 - 1) with (length (entities s)) by lia. split.
           ++ intros [= <-]. apply list_lookup_middle. done.
           ++ intros H. f_equal. apply lookup_app_Some in H as [H|[H1 H2]].
              ** exfalso. apply Hnin. eapply elem_of_list_lookup_2; eauto.
              ** apply list_lookup_singleton_Some in H2. lia.
        -- rewrite list_lookup_insert_ne by done.
           change (match grow (indices s) e !! x with Some (Some k) => Some (k - 1) | _ => None end)
             with (ss_get_index (SS (grow (indices s) e) (entities s) (sdata s) : sset V) x).
           rewrite get_index_grow, (wf_pos s W). rewrite lookup_app. split.
           ++ intros ->. done.
           ++ destruct (entities s !! i) eqn:Ei; [done|].
              intros H. apply list_lookup_singleton_Some in H. naive_solver.
      * intros x. destruct (decide (x = e)) as [->|Hne].
        -- rewrite list_lookup_insert by (rewrite grow_length; lia). intros [= H]. lia.
        -- rewrite list_lookup_insert_ne by done. rewrite grow_lookup.
           destruct (indices s !! x) eqn:Ex.
           ++ rewrite <- Ex. apply (wf_nz s W).
           ++ by case_decide.
    + intros x. unfold ss_lookup, ss_get_index; simpl.
      destruct (decide (x = e)) as [->|Hne].
      * rewrite list_lookup_insert by (rewrite grow_length; lia).
        rewrite (wf_len s W). apply list_lookup_middle. lia.
      * rewrite list_lookup_insert_ne by done.
        change (match grow (indices s) e !! x with Some (Some k) => Some (k - 1) | _ => None end)
             with (ss_get_index (SS (grow (indices s) e) (entities s) (sdata s) : sset V) x).
        rewrite get_index_grow. fold (ss_get_index s x). destruct (ss_get_index s x) as [i|] eqn:Ex; [|done].
        rewrite lookup_app_l; [done|]. rewrite <- (wf_len s W). apply (wf_pos s W) in Ex.
        eapply lookup_lt_Some; eauto.
    + simpl. rewrite insert_length. apply grow_length.
    + intros x Hne. unfold ss_get_index; simpl. rewrite list_lookup_insert_ne by done.
      apply (get_index_grow s e x [] []).
  - assert (ss_get_index s e = None) as Hi by (unfold ss_get_index; by rewrite E).
    assert (ss_exist s e = false) as He by (by apply exist_pos_false).
    apply lookup_ge_None in E.
    destruct (decide (e ≤ e ∧ length (indices s) ≤ e)) as [_|]; [|lia]. simpl.
    eexists. split; [done|]. rewrite He, Hi.
    assert (e ∉ entities s) as Hnin.
    { intros H. apply (elem_pos s e W) in H. rewrite Hi in H. by destruct H. }
    split_and!; try done.
    + split; simpl.
      * rewrite !app_length, (wf_len s W). done.
      * intros x i. unfold ss_get_index; simpl.
        destruct (decide (x = e)) as [->|Hne].
        -- rewrite list_lookup_insert by (rewrite grow_length; lia).
           replace (length (entities s) + 1 - 1) with (length (entities s)) by lia. split.
           ++ intros [= <-]. apply list_lookup_middle. done.
           ++ intros H. f_equal. apply lookup_app_Some in H as [H|[H1 H2]].
              ** exfalso. apply Hnin. eapply elem_of_list_lookup_2; eauto.
              ** apply list_lookup_singleton_Some in H2. lia.
        -- rewrite list_lookup_insert_ne by done.
           change (match grow (indices s) e !! x with Some (Some k) => Some (k - 1) | _ => None end)
             with (ss_get_index (SS (grow (indices s) e) (entities s) (sdata s) : sset V) x).
           rewrite get_index_grow, (wf_pos s W). rewrite lookup_app. split.
           ++ intros ->. done.
           ++ destruct (entities s !! i) eqn:Ei; [done|].
              intros H. apply list_lookup_singleton_Some in H. naive_solver.
      * intros x. destruct (decide (x = e)) as [->|Hne].
        -- rewrite list_lookup_insert by (rewrite grow_length; lia). intros [= H]. lia.
        -- rewrite list_lookup_insert_ne by done. rewrite grow_lookup.
           destruct (indices s !! x) eqn:Ex.
           ++ rewrite <- Ex. apply (wf_nz s W).
           ++ by case_decide.
    + intros x. unfold ss_lookup, ss_get_index; simpl.
      destruct (decide (x = e)) as [->|Hne].
      * rewrite list_lookup_insert by (rewrite grow_length; lia).
        rewrite (wf_len s W). apply list_lookup_middle. lia.
      * rewrite list_lookup_insert_ne by done.
        change (match grow (indices s) e !! x with Some (Some k) => Some (k - 1) | _ => None end)
             with (ss_get_index (SS (grow (indices s) e) (entities s) (sdata s) : sset V) x).
        rewrite get_index_grow. fold (ss_get_index s x). destruct (ss_get_index s x) as [i|] eqn:Ex; [|done].
        rewrite lookup_app_l; [done|]. rewrite <- (wf_len s W). apply (wf_pos s W) in Ex.
        eapply lookup_lt_Some; eauto.
    + simpl. rewrite insert_length. apply grow_length.
    + intros x Hne. unfold ss_get_index; simpl. rewrite list_lookup_insert_ne by done.
      apply (get_index_grow s e x [] []).
Qed.

Lemma add_rep e v s m n : ss_rep s m n ->
  exists s', ss_add e v s = (Ret tt, s') /\ ss_rep s' (<[e := v]> m) (n `max` S e) /\
    (forall x, x <> e -> ss_get_index s' x = ss_get_index s x) /\
    (is_Some (m !! e) -> ss_get_index s' e = ss_get_index s e) /\
    entities s' = (if ss_exist s e then entities s else entities s ++ [e]).
Proof.
  intros [W L N]. destruct (add_spec e v s W) as (s' & E & W' & L' & N' & P & En & P' & _).
  exists s'. split; [done|]. split_and!; try done.
  - split; [done| |by rewrite N', N].
    intros x. rewrite L'. case_decide; subst.
    + by rewrite lookup_insert.
    + rewrite lookup_insert_ne by done. done.
  - intros H. apply P'. apply exist_lookup; [done|]. by rewrite L.
Qed.

(** swap of two dense positions *)
Definition swap_list {A} (l : list A) (i j : nat) : list A :=
  match l !! i, l !! j with Some x, Some y => <[j := x]> (<[i := y]> l) | _, _ => l end.
Definition swapn (i j x : nat) : nat :=
  if decide (x = i) then j else if decide (x = j) then i else x.
Lemma swapn_invol i j x : swapn i j (swapn i j x) = x.
Proof. unfold swapn. repeat case_decide; congruence. Qed.

Lemma swap_list_lookup {A} (l : list A) i j x : i < length l -> j < length l ->
  swap_list l i j !! x = l !! swapn i j x.
Proof.
  intros Hi Hj. unfold swap_list.
  destruct (lookup_lt_is_Some_2 l i Hi) as [a Ha]. destruct (lookup_lt_is_Some_2 l j Hj) as [b Hb].
  rewrite Ha, Hb. unfold swapn. destruct (decide (x = j)) as [->|Hxj].
  - rewrite list_lookup_insert by (by rewrite insert_length). case_decide; subst; congruence.
  - rewrite list_lookup_insert_ne by done. destruct (decide (x = i)) as [->|Hxi].
    + rewrite list_lookup_insert by done. done.
    + by rewrite list_lookup_insert_ne by done.
Qed.
Lemma vec_swap_Some {A} (l : list A) i j : i < length l -> j < length l ->
  vec_swap l i j = Some (swap_list l i j).
Proof.
  intros Hi Hj. unfold vec_swap, swap_list.
  destruct (lookup_lt_is_Some_2 l i Hi) as [a ->]. by destruct (lookup_lt_is_Some_2 l j Hj) as [b ->].
Qed.
Lemma swap_list_length {A} (l : list A) i j : length (swap_list l i j) = length l.
Proof. unfold swap_list. destruct (l !! i), (l !! j); rewrite ?insert_length; done. Qed.
Lemma swap_list_same {A} (l : list A) i : swap_list l i i = l.
Proof.
  unfold swap_list. destruct (l !! i) eqn:E; [|done].
  rewrite list_insert_insert. by apply list_insert_id.
Qed.

Lemma swap_by_index_spec i j s : ss_wf s -> i < length (entities s) -> j < length (entities s) ->
  exists s', ss_swap_by_index i j s = (Ret tt, s') /\ ss_wf s' /\
    (forall x, ss_lookup s' x = ss_lookup s x) /\
    length (indices s') = length (indices s) /\
    entities s' = swap_list (entities s) i j /\
    (forall x, ss_get_index s' x = swapn i j <$> ss_get_index s x).
Proof.
  intros W Hi Hj. unfold ss_swap_by_index, bind, get, put, unwrap, ret; simpl.
  destruct (Nat.eqb_spec i j) as [->|Hij].
  { exists s. split; [done|]. rewrite swap_list_same. split_and!; try done.
    intros x. destruct (ss_get_index s x) as [k|]; [|done]. simpl. f_equal. unfold swapn. by repeat case_decide. }
  unfold ss_len. rewrite (proj2 (Nat.leb_gt _ _)), (proj2 (Nat.leb_gt _ _)) by lia.
  destruct (lookup_lt_is_Some_2 _ i Hi) as [ea Ha]. destruct (lookup_lt_is_Some_2 _ j Hj) as [eb Hb].
  rewrite Ha, Hb. simpl.
  pose proof (wf_idx s ea i W Ha) as Ia. pose proof (wf_idx s eb j W Hb) as Ib.
  assert (ea <> eb) as Hne by (intros ->; rewrite Ia in Ib; injection Ib; lia).
  pose proof (lookup_lt_Some _ _ _ Ia) as La. pose proof (lookup_lt_Some _ _ _ Ib) as Lb.
  rewrite (vec_swap_Some (indices s) ea eb La Lb). simpl.
  rewrite (vec_swap_Some (entities s) i j Hi Hj). simpl.
  pose proof Hi as Hi'. pose proof Hj as Hj'. rewrite (wf_len s W) in Hi', Hj'.
  rewrite (vec_swap_Some (sdata s) i j Hi' Hj'). simpl.
  eexists. split; [done|].
  assert (forall x, ss_get_index (SS (swap_list (indices s) ea eb) (swap_list (entities s) i j) (swap_list (sdata s) i j) : sset V) x
           = swapn i j <$> ss_get_index s x) as HG.
  { intros x. unfold ss_get_index at 1; simpl. rewrite swap_list_lookup by done.
    unfold swapn at 1. destruct (decide (x = ea)) as [->|Hxa]; [|destruct (decide (x = eb)) as [->|Hxb]].
    - rewrite Ib. unfold ss_get_index. rewrite Ia. simpl. f_equal. unfold swapn.
      rewrite decide_True by lia. lia.
    - rewrite Ia. unfold ss_get_index. rewrite Ib. simpl. f_equal. unfold swapn.
      rewrite decide_False by lia. rewrite decide_True by lia. lia.
    - fold (ss_get_index s x). destruct (ss_get_index s x) as [k|] eqn:Ek; [|done]. simpl. f_equal.
      apply (wf_pos s W) in Ek. unfold swapn. rewrite !decide_False by congruence. done. }
  split_and!; try done.
  - split; simpl.
    + rewrite !swap_list_length. apply W.
    + intros x k. rewrite HG. rewrite swap_list_lookup by done.
      rewrite fmap_Some. split.
      * intros (k' & Hk' & ->). rewrite swapn_invol. by apply (wf_pos s W).
      * intros H. apply (wf_pos s W) in H. exists (swapn i j k). by rewrite swapn_invol.
    + intros x. rewrite swap_list_lookup by done. apply (wf_nz s W).
  - intros x. unfold ss_lookup. rewrite HG. destruct (ss_get_index s x) as [k|]; [|done]. simpl.
    rewrite swap_list_lookup by done. by rewrite swapn_invol.
  - simpl. by rewrite swap_list_length.
Qed.

Lemma swap_by_index_rep i j s m n : ss_rep s m n -> i < length (entities s) -> j < length (entities s) ->
  exists s', ss_swap_by_index i j s = (Ret tt, s') /\ ss_rep s' m n /\
    entities s' = swap_list (entities s) i j /\
    (forall x, ss_get_index s' x = swapn i j <$> ss_get_index s x).
Proof.
  intros [W L N] Hi Hj. destruct (swap_by_index_spec i j s W Hi Hj) as (s' & E & W' & L' & N' & En & P).
  exists s'. split_and!; try done. split; [done| |by rewrite N'].
  intros x. by rewrite L'.
Qed.

Lemma swap_by_index_same i s : ss_swap_by_index i i s = (Ret tt, s).
Proof. unfold ss_swap_by_index, bind, get; simpl. by rewrite Nat.eqb_refl. Qed.

Lemma swap_by_entity_eq a b i j s : ss_wf s -> ss_get_index s a = Some i -> ss_get_index s b = Some j ->
  ss_swap_by_entity a b s = ss_swap_by_index i j s.
Proof.
  intros W Ha Hb. unfold ss_swap_by_entity, ss_swap_by_index, bind, get; simpl.
  assert (ss_exist s a = true) as -> by (apply exist_pos; eauto).
  assert (ss_exist s b = true) as -> by (apply exist_pos; eauto). simpl.
  pose proof Ha as Ha'. pose proof Hb as Hb'. apply (wf_pos s W) in Ha', Hb'.
  pose proof (wf_idx s a i W Ha') as Ia. pose proof (wf_idx s b j W Hb') as Ib.
  destruct (Nat.eqb_spec a b) as [->|Hne].
  { assert (i = j) as -> by congruence. by rewrite Nat.eqb_refl. }
  assert (i <> j) as Hij by congruence. apply Nat.eqb_neq in Hij as ->.
  unfold ss_len. pose proof (lookup_lt_Some _ _ _ Ha'). pose proof (lookup_lt_Some _ _ _ Hb').
  rewrite (proj2 (Nat.leb_gt _ _)), (proj2 (Nat.leb_gt _ _)) by lia.
  rewrite Ia, Ib, Ha', Hb'. simpl.
  by replace (i + 1 - 1) with i by lia; replace (j + 1 - 1) with j by lia.
Qed.

Lemma vec_swap_remove_spec {A} (l : list A) i x : l !! i = Some x ->
  exists y, last l = Some y /\ vec_swap_remove l i = Some (x, take (length l - 1) (<[i := y]> l)).
Proof.
  intros H. unfold vec_swap_remove. rewrite H. destruct l as [|a l'] using rev_ind; [done|].
  rewrite last_snoc. eauto.
Qed.

(** dense position after a swap_remove of position [i] of [n] *)
Lemma swap_remove_lookup {A} (l : list A) i y k : i < length l -> last l = Some y ->
  take (length l - 1) (<[i := y]> l) !! k =
    (if decide (k < length l - 1) then (if decide (k = i) then Some y else l !! k) else None).
Proof.
  intros Hi Hl. case_decide as Hk.
  - rewrite lookup_take by done. case_decide as E; subst.
    + by rewrite list_lookup_insert.
    + by rewrite list_lookup_insert_ne.
  - apply lookup_ge_None_2. rewrite take_length, insert_length. lia.
Qed.

Lemma remove_spec e i s : ss_wf s -> ss_get_index s e = Some i ->
  exists v s', ss_remove e s = (Ret (Some v), s') /\ ss_lookup s e = Some v /\ ss_wf s' /\
    (forall x, ss_lookup s' x = if decide (x = e) then None else ss_lookup s x) /\
    length (indices s') = length (indices s) /\
    (exists el, last (entities s) = Some el /\
       entities s' = take (length (entities s) - 1) (<[i := el]> (entities s))).
Proof.
  intros W He. pose proof He as Hent. apply (wf_pos s W) in Hent.
  pose proof (wf_idx s e i W Hent) as Ie. pose proof (lookup_lt_Some _ _ _ Ie) as Le.
  pose proof (lookup_lt_Some _ _ _ Hent) as Li.
  unfold ss_remove, bind, get, put, unwrap, ret; simpl.
  rewrite (proj2 (Nat.ltb_ge _ _)) by lia. rewrite Ie. simpl.
  replace (i + 1 - 1) with i by lia. rewrite Hent. simpl.
  destruct (vec_swap_remove_spec (entities s) i e Hent) as (el & Hel & Hsr). rewrite Hel. simpl.
  assert (entities s !! (length (entities s) - 1) = Some el) as Hlast.
  { rewrite last_lookup in Hel. by replace (length (entities s) - 1) with (pred (length (entities s))) by lia. }
  pose proof (wf_idx s el _ W Hlast) as Iel. pose proof (lookup_lt_Some _ _ _ Iel) as Lel.
  rewrite (vec_swap_Some (indices s) e el Le Lel). simpl.
  unfold vec_set. destruct (lookup_lt_is_Some_2 (swap_list (indices s) e el) e) as [o Ho].
  { by rewrite swap_list_length. }
  rewrite Ho. simpl. rewrite Hsr. simpl.
  pose proof Li as Lid. rewrite (wf_len s W) in Lid.
  destruct (lookup_lt_is_Some_2 _ _ Lid) as [v Hv].
  destruct (vec_swap_remove_spec (sdata s) i v Hv) as (vl & Hvl & Hsr'). rewrite Hsr'. simpl.
  assert (sdata s !! (length (entities s) - 1) = Some vl) as Hvlast.
  { rewrite last_lookup in Hvl. rewrite (wf_len s W).
    by replace (length (sdata s) - 1) with (pred (length (sdata s))) by lia. }
  set (n := length (entities s)) in *.
  assert (n = length (sdata s)) as Hn by (unfold n; apply W).
  eexists _, _. split; [done|]. split; [unfold ss_lookup; by rewrite He|].
  assert (forall x, ss_get_index (SS (<[e:=None]> (swap_list (indices s) e el))
       (take (n - 1) (<[i:=el]> (entities s))) (take (length (sdata s) - 1) (<[i:=vl]> (sdata s))) : sset V) x
     = if decide (x = e) then None else if decide (x = el) then Some i else ss_get_index s x) as HG.
  { intros x. unfold ss_get_index at 1; simpl. destruct (decide (x = e)) as [->|Hxe].
    - rewrite list_lookup_insert by (by rewrite swap_list_length). done.
    - rewrite list_lookup_insert_ne by done. rewrite swap_list_lookup by done.
      unfold swapn. rewrite decide_False by done. destruct (decide (x = el)) as [->|Hxl].
      + rewrite Ie. f_equal. lia.
      + done. }
  assert (forall k x, entities s !! k = Some x -> x = el -> k = n - 1) as Huniq.
  { intros k x Hk ->. apply (wf_pos s W) in Hk, Hlast. congruence. }
  split_and!; try done.
  - split; simpl.
    + rewrite !take_length, !insert_length. unfold n. rewrite (wf_len s W). done.
    + intros x k. rewrite HG. unfold n. rewrite (swap_remove_lookup (entities s) i el k) by done. fold n.
      destruct (decide (x = e)) as [->|Hxe].
      * split; [done|]. case_decide as Hk; [|done]. case_decide as Hki.
        -- intros [= ->]. assert (i = n - 1) by (eapply Huniq; eauto). lia.
        -- intros H. apply (wf_pos s W) in H. congruence.
      * destruct (decide (x = el)) as [->|Hxl].
        -- assert (i < n - 1) as Hin.
           { destruct (decide (i = n - 1)) as [->|]; [|lia]. congruence. }
           split.
           ++ intros [= <-]. by rewrite !decide_True.
           ++ case_decide as Hk; [|done]. case_decide as Hki; [congruence|].
              intros H. assert (k = n - 1) by (eapply Huniq; eauto). lia.
        -- rewrite (wf_pos s W). case_decide as Hk; [case_decide as Hki|].
           ++ subst k. split; [congruence|]. intros [= ->]. done.
           ++ done.
           ++ split; [|done]. intros H. pose proof (lookup_lt_Some _ _ _ H). fold n in H0.
              assert (k = n - 1) as -> by lia. congruence.
    + intros x. destruct (decide (x = e)) as [->|Hxe].
      * by rewrite list_lookup_insert by (by rewrite swap_list_length).
      * rewrite list_lookup_insert_ne by done. rewrite swap_list_lookup by done. apply (wf_nz s W).
  - intros x. unfold ss_lookup. rewrite HG. simpl. destruct (decide (x = e)) as [->|Hxe]; [done|].
    destruct (decide (x = el)) as [->|Hxl].
    + apply (wf_pos s W) in Hlast. rewrite Hlast.
      rewrite swap_remove_lookup by done.
      assert (i < n - 1) as Hin.
      { destruct (decide (i = n - 1)) as [->|]; [|lia]. apply (wf_pos s W) in Hlast. congruence. }
      rewrite decide_True by lia. rewrite decide_True by done. done.
    + destruct (ss_get_index s x) as [k|] eqn:Ek; [|done].
      apply (wf_pos s W) in Ek. rewrite swap_remove_lookup by done.
      assert (k < n) by (eapply lookup_lt_Some; eauto).
      assert (k <> n - 1) by congruence. assert (k <> i) by congruence.
      rewrite decide_True by lia. by rewrite decide_False by done.
  - simpl. by rewrite insert_length, swap_list_length.
  - exists el. done.
Qed.

Lemma remove_spec_None e s : ss_get_index s e = None -> e <> length (indices s) ->
  ss_remove e s = (Ret None, s).
Proof.
  intros H Hne. unfold ss_remove, bind, get, unwrap, ret, ss_get_index in *; simpl.
  destruct (Nat.ltb_spec (length (indices s)) e) as [|Hle]; [done|].
  destruct (lookup_lt_is_Some_2 (indices s) e) as [o Ho]; [lia|]. rewrite Ho in *. by destruct o.
Qed.
Lemma remove_spec_Panic e s : e = length (indices s) -> ss_remove e s = (Panic, s).
Proof.
  intros ->. unfold ss_remove, bind, get, unwrap; simpl.
  rewrite (proj2 (Nat.ltb_ge _ _)) by lia.
  by rewrite (lookup_ge_None_2 (indices s)) by lia.
Qed.

Lemma remove_rep e s m n v : ss_rep s m n -> m !! e = Some v ->
  exists s' i el, ss_remove e s = (Ret (Some v), s') /\ ss_rep s' (delete e m) n /\
    ss_get_index s e = Some i /\ last (entities s) = Some el /\
    entities s' = take (length (entities s) - 1) (<[i := el]> (entities s)).
Proof.
  intros [W L N] Hm. destruct (ss_get_index s e) as [i|] eqn:Ei.
  2:{ rewrite <- L in Hm. unfold ss_lookup in Hm. by rewrite Ei in Hm. }
  destruct (remove_spec e i s W Ei) as (v' & s' & E & Lv & W' & L' & N' & el & Hel & En).
  assert (v' = v) as -> by (rewrite L in Lv; congruence).
  exists s', i, el. split_and!; try done. split; [done| |by rewrite N'].
  intros x. rewrite L'. case_decide; subst.
  - by rewrite lookup_delete.
  - by rewrite lookup_delete_ne.
Qed.
Lemma remove_rep_None e s m n : ss_rep s m n -> m !! e = None ->
  ss_remove e s = if decide (e = n) then (Panic, s) else (Ret None, s).
Proof.
  intros [W L N] Hm. rewrite <- L in Hm.
  assert (ss_get_index s e = None) as Hi.
  { apply eq_None_not_Some. rewrite pos_lookup_is_Some by done. rewrite Hm. intros [? [=]]. }
  case_decide; subst.
  - by apply remove_spec_Panic.
  - by apply remove_spec_None.
Qed.
(** A present entity is never at the boundary. *)
Lemma rep_lt e s m n : ss_rep s m n -> is_Some (m !! e) -> e < n.
Proof.
  intros [W L N] H. rewrite <- L in H. rewrite <- pos_lookup_is_Some in H by done.
  destruct H as [i Hi]. apply (wf_pos s W) in Hi. rewrite <- N. by eapply wf_ent_lt.
Qed.

Lemma get_rep e s m n : ss_rep s m n -> ss_get s e = Ret (m !! e).
Proof.
  intros [W L N]. rewrite <- L. unfold ss_get, ss_lookup, ss_get_index.
  destruct (indices s !! e) as [[k|]|] eqn:E; [|done..].
  destruct (wf_idx_inv s e k W E) as [_ H]. apply lookup_lt_Some in H. rewrite (wf_len s W) in H.
  by destruct (lookup_lt_is_Some_2 _ _ H) as [v ->].
Qed.
Lemma get_loc_wf e s : ss_wf s -> ss_get_loc s e = Ret (ss_get_index s e).
Proof.
  intros W. unfold ss_get_loc, ss_get_index.
  destruct (indices s !! e) as [[k|]|] eqn:E; [|done..].
  destruct (wf_idx_inv s e k W E) as [_ H]. apply lookup_lt_Some in H. rewrite (wf_len s W) in H.
  by rewrite (proj2 (Nat.ltb_lt _ _)).
Qed.
Lemma get_unchecked_wf e s i : ss_wf s -> ss_get_index s e = Some i -> ss_get_unchecked_loc s e = Ret i.
Proof.
  intros W. unfold ss_get_unchecked_loc, ss_get_index.
  destruct (indices s !! e) as [[k|]|] eqn:E; [|done..]. intros [= <-].
  destruct (wf_idx_inv s e k W E) as [_ H]. apply lookup_lt_Some in H. rewrite (wf_len s W) in H.
  by rewrite (proj2 (Nat.ltb_lt _ _)).
Qed.

Lemma poke_wf i v s : ss_wf s -> ss_wf (ss_poke i v s).
Proof.
  intros W. split; simpl; [rewrite insert_length; apply W|apply (wf_pos s W)|apply (wf_nz s W)].
Qed.
Lemma poke_rep e i v s m n : ss_rep s m n -> ss_get_index s e = Some i -> ss_rep (ss_poke i v s) (<[e := v]> m) n.
Proof.
  intros [W L N] Hi. split; [by apply poke_wf| |done].
  intros x. unfold ss_lookup. change (ss_get_index (ss_poke i v s) x) with (ss_get_index s x). simpl.
  destruct (decide (x = e)) as [->|Hne].
  - rewrite Hi, lookup_insert, list_lookup_insert; [done|].
    apply (wf_pos s W) in Hi. apply wf_sdata_lt; [done|]. by eapply lookup_lt_Some.
  - rewrite lookup_insert_ne by done. rewrite <- L. unfold ss_lookup.
    destruct (ss_get_index s x) as [k|] eqn:Ek; [|done].
    rewrite list_lookup_insert_ne; [done|]. intros <-. apply (wf_pos s W) in Ek, Hi. congruence.
Qed.

(** Batch *)
Lemma add_unfold e v s : ss_wf s -> ss_get_index s e = None ->
  ss_add e v s = (Ret tt, SS (<[e := Some (length (entities s) + 1)]> (grow (indices s) e))
                    (entities s ++ [e]) (sdata s ++ [v])).
Proof.
  intros W H. unfold ss_add, bind, get, put, unwrap, ret, ss_get_index in *; simpl. rewrite grow_lookup.
  destruct (indices s !! e) as [[k|]|] eqn:E; [done..|]. apply lookup_ge_None in E.
  by rewrite decide_True by lia.
Qed.

(** add one by one *)
Fixpoint add_seq (es : list nat) (vs : list V) : M (sset V) unit :=
  match es, vs with
  | e :: es', v :: vs' => ss_add e v >>! add_seq es' vs'
  | _, _ => ret tt
  end.

Lemma batch_start ind st i es : batch_indices ind st (S i) es = batch_indices ind (S st) i es.
Proof.
  revert ind i. induction es as [|e es IH]; intros ind i; [done|]. simpl.
  replace (st + S i + 1) with (S st + i + 1) by lia. rewrite IH. done.
Qed.

Lemma add_batch_seq es vs s : ss_wf s -> length es = length vs -> NoDup es ->
  (forall e, e ∈ es -> ss_get_index s e = None) ->
  ss_add_batch es vs s = add_seq es vs s.
Proof.
  intros W Hlen ND Hfresh. unfold ss_add_batch, bind, get, put, assert, ret; simpl.
  rewrite Hlen, Nat.eqb_refl.
  revert vs s W Hlen Hfresh. induction ND as [|e es Hnin ND IH]; intros [|v vs] s W Hlen Hfresh; try done.
  - simpl. rewrite !app_nil_r. unfold ret. by destruct s.
  - cbn [add_seq]. unfold bind.
    assert (ss_get_index s e = None) as He by (apply Hfresh; left).
    destruct (add_spec e v s W) as (s' & Es' & W' & _ & _ & P & _).
    rewrite Es'. rewrite add_unfold in Es' by done. injection Es' as <-.
    rewrite <- IH; [|done|by injection Hlen|].
    + simpl. rewrite app_length, <- !app_assoc. simpl. rewrite batch_start.
      replace (length (entities s) + 0 + 1) with (length (entities s) + 1) by lia.
      by replace (length (entities s) + 1) with (S (length (entities s))) by lia.
    + intros x Hx. rewrite P; [apply Hfresh; by right|]. by intros ->.
Qed.

Lemma add_seq_rep es vs s m n : ss_rep s m n -> length es = length vs -> NoDup es ->
  (forall e, e ∈ es -> m !! e = None) ->
  exists s', add_seq es vs s = (Ret tt, s') /\
    ss_rep s' (list_to_map (zip es vs) ∪ m) (foldl (fun n e => n `max` S e) n es) /\
    entities s' = entities s ++ es /\
    (forall x, is_Some (m !! x) -> ss_get_index s' x = ss_get_index s x).
Proof.
  intros H Hlen ND Hf. revert vs s m n H Hlen Hf.
  induction ND as [|e es Hnin ND IH]; intros [|v vs] s m n H Hlen Hf; try done.
  - exists s. simpl. rewrite app_nil_r, (left_id ∅ (∪)). done.
  - cbn [add_seq]. unfold bind.
    destruct (add_rep e v s m n H) as (s1 & E1 & R1 & P1 & _ & En1). rewrite E1.
    destruct (IH vs s1 _ _ R1) as (s2 & E2 & R2 & En2 & P2).
    + by injection Hlen.
    + intros x Hx. rewrite lookup_insert_ne by (by intros ->). apply Hf. by right.
    + exists s2. split; [done|]. split_and!.
      * simpl. replace (<[e:=v]> (list_to_map (zip es vs)) ∪ m) with (list_to_map (zip es vs) ∪ <[e:=v]> m); [done|].
        rewrite <- insert_union_l, insert_union_r; [done|].
        apply not_elem_of_list_to_map_1. rewrite fst_zip by (injection Hlen; lia). done.
      * rewrite En2, En1. rewrite (rep_exist _ _ _ _ H). rewrite bool_decide_false.
        -- by rewrite <- app_assoc.
        -- rewrite Hf by left. intros [? [=]].
      * intros x Hx. rewrite P2.
        -- apply P1. intros ->. rewrite Hf in Hx by left. by destruct Hx.
        -- destruct (decide (x = e)) as [->|]; [rewrite lookup_insert|rewrite lookup_insert_ne by done]; eauto.
Qed.

End sparse.

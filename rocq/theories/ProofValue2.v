(** Where the values go, exactly, in histories that keep to the rules (C51):
    the abstract world. *)
From stdpp Require Import prelude list gmap fin_maps.
From Verif Require Import Base Api Spec History SpecValue.

Section vals.
Context {V : Type}.
Implicit Types (aw : @aworld V) (m : gmap nat V) (t id : nat).

Definition opt (x : option V) : list V := match x with Some v => [v] | None => [] end.
Definition mv m : list V := (map_to_list m).*2.
Definition vals aw t : list V := mv (default ∅ (a_comps aw !! t)).

Lemma mv_empty : mv ∅ = [].
Proof. unfold mv. by rewrite map_to_list_empty. Qed.
Lemma mv_insert_new m id v : m !! id = None -> mv (<[id := v]> m) ≡ₚ v :: mv m.
Proof. intros H. unfold mv. by rewrite map_to_list_insert. Qed.
Lemma mv_delete m id : mv (delete id m) ++ opt (m !! id) ≡ₚ mv m.
Proof.
  destruct (m !! id) as [x|] eqn:E; simpl.
  - rewrite <- (insert_id m id x E) at 2. rewrite <- insert_delete_insert. rewrite mv_insert_new by apply lookup_delete. symmetry. apply Permutation_cons_append.
  - rewrite delete_notin by done. by rewrite app_nil_r.
Qed.
Lemma mv_insert m id v : mv (<[id := v]> m) ++ opt (m !! id) ≡ₚ mv m ++ [v].
Proof.
  rewrite <- insert_delete_insert. rewrite mv_insert_new by apply lookup_delete. pose proof (mv_delete m id) as H. rewrite <- Permutation_cons_append. cbn. by rewrite H.
Qed.
Lemma mv_alter m id (f : V -> V) : mv (alter f id m) ++ opt (m !! id) ≡ₚ mv m ++ (f <$> opt (m !! id)).
Proof.
  destruct (m !! id) as [x|] eqn:E; simpl.
  - assert (alter f id m = <[id := f x]> m) as ->. { apply map_eq. intros i. destruct (decide (i = id)) as [->|]; [by rewrite lookup_alter, lookup_insert, E|by rewrite lookup_alter_ne, lookup_insert_ne]. }
    pose proof (mv_insert m id (f x)) as H. by rewrite E in H.
  - assert (alter f id m = m) as ->; [|done]. apply map_eq. intros i. destruct (decide (i = id)) as [->|]; [by rewrite lookup_alter, E|by rewrite lookup_alter_ne].
Qed.
(** changing in place a list of places *)
Lemma mv_visit (ids : list nat) (f : nat -> V -> V) m m' : NoDup ids ->
  (forall id, m' !! id = if decide (id ∈ ids) then f id <$> m !! id else m !! id) ->
  mv m' ++ (ids ≫= (fun id => opt (m !! id))) ≡ₚ mv m ++ (ids ≫= (fun id => f id <$> opt (m !! id))).
Proof.
  revert m m'. induction ids as [|x ids IH]; intros m m' Hnd H.
  - assert (m' = m) as ->; [|done]. apply map_eq. intros i. rewrite H. rewrite decide_False; [done|]. apply not_elem_of_nil.
  - apply NoDup_cons in Hnd as [Hx Hnd]. set (m1 := alter (f x) x m).
    assert (forall (g : nat -> option V -> list V), (ids ≫= (fun id => g id (m1 !! id))) = (ids ≫= (fun id => g id (m !! id)))) as Hsame.
    { intros g. clear IH H Hnd. induction ids as [|y ids IHi]; [done|]. rewrite !bind_cons. rewrite IHi by set_solver. f_equal. f_equal. unfold m1. apply lookup_alter_ne. intros ->. apply Hx. by left. }
    assert (mv m' ++ (ids ≫= (fun id => opt (m1 !! id))) ≡ₚ mv m1 ++ (ids ≫= (fun id => f id <$> opt (m1 !! id)))) as Hi.
    { apply IH; [done|]. intros id. rewrite H. unfold m1. destruct (decide (id = x)) as [->|Hne].
      - rewrite decide_True by by left. rewrite decide_False by done. by rewrite lookup_alter.
      - rewrite lookup_alter_ne by done. apply decide_ext. rewrite elem_of_cons. tauto. }
    rewrite (Hsame (fun _ x => opt x)), (Hsame (fun id x => f id <$> opt x)) in Hi. rewrite !bind_cons.
    pose proof (mv_alter m x (f x)) as Ha. fold m1 in Ha.
    rewrite (Permutation_app_comm (opt (m !! x))). rewrite app_assoc. rewrite Hi. rewrite <- app_assoc, (Permutation_app_comm _ (opt (m !! x))), app_assoc. rewrite Ha. by rewrite <- app_assoc.
Qed.
Lemma mv_batch lo (vs : list V) m : (forall id, lo <= id < lo + length vs -> m !! id = None) ->
  mv (list_to_map (zip (seq lo (length vs)) vs) ∪ m) ≡ₚ mv m ++ vs.
Proof.
  revert lo. induction vs as [|v vs IH]; intros lo H; simpl.
  - rewrite (left_id_L ∅ (∪)). by rewrite app_nil_r.
  - rewrite <- insert_union_l. rewrite mv_insert_new.
    + rewrite IH; [apply Permutation_middle|]. intros id Hid. apply H. simpl. lia.
    + apply lookup_union_None. split; [|apply H; simpl; lia]. apply not_elem_of_list_to_map_1. rewrite fst_zip by (by rewrite seq_length). rewrite elem_of_seq. lia.
Qed.

Lemma vals_set c aw t : vals (a_set_comps c aw) t = mv (default ∅ (c !! t)).
Proof. done. Qed.
Lemma vals_alter (g : gmap nat V -> gmap nat V) u (c : gmap nat (gmap nat V)) t :
  mv (default ∅ (alter g u c !! t)) = if decide (u = t) then match c !! t with Some m => mv (g m) | None => [] end else mv (default ∅ (c !! t)).
Proof.
  case_decide as E; [subst|by rewrite lookup_alter_ne by done]. rewrite lookup_alter. destruct (c !! t); [done|]. simpl. apply mv_empty.
Qed.
Lemma comp_reg aw t m id : a_comps aw !! t = Some m -> comp aw t id = m !! id.
Proof. intros E. unfold comp. by rewrite E. Qed.

(** one call *)
Lemma call_values (h : history V) aw o r t : (forall t id, value_of h t id = comp aw t id) ->
  (forall q id, q_visits aw q id = true -> is_Some (q_get aw q id)) -> legal aw o -> aout aw o r ->
  vals (anext aw o) t ++ returned t (o, r) ++ dropped h t (o, r) ≡ₚ vals aw t ++ given t (o, r) ++ made h t (o, r).
Proof.
  intros Hv Hq L A. assert (forall t id, old h t id = opt (comp aw t id)) as Ho. { intros t' id. unfold old. rewrite Hv. done. }
  assert (forall (a : list V), a ++ [] ++ [] ≡ₚ a ++ [] ++ []) as Hdone by done.
  destruct o; cbn [anext aout legal] in *.
  - subst r. destruct (decide (registered aw t0)) as [|Hn]; [done|]. rewrite vals_set. unfold vals. destruct (decide (t0 = t)) as [->|]; [|by rewrite lookup_insert_ne].
    rewrite lookup_insert. unfold registered in Hn. apply eq_None_not_Some in Hn. by rewrite Hn.
  - by subst r.
  - subst r. destruct (a_free aw); done.
  - by subst r.
  - (* RemoveEntity *) subst r. destruct (decide (live aw id)); [|done]. cbn [returned dropped given made fst app]. rewrite Ho. rewrite !app_nil_r. unfold vals, comp. cbn. rewrite lookup_fmap.
    destruct (a_comps aw !! t) as [m|]; [|done]. cbn. apply mv_delete.
  - destruct (a_exist aw id) as [[]| | |]; by subst r.
  - (* Attach *) destruct (a_exist aw id) as [[]| | |]; try (subst r; cbn; by rewrite ?app_nil_r). destruct (decide (registered aw t0)) as [[m Hm]|]; subst r; [|cbn; by rewrite ?app_nil_r].
    cbn [returned dropped given made fst app]. rewrite !app_nil_r. unfold vals at 1. cbn. rewrite vals_alter. destruct (decide (t0 = t)) as [->|]; [|done]. rewrite Ho, (comp_reg _ _ _ _ Hm). unfold vals. rewrite Hm. apply mv_insert.
  - (* Detach *) destruct (a_exist aw id) as [[]| | |]; try (by subst r). destruct (decide (has aw t0 id)) as [[x Hx]|Hn].
    + assert (exists m, a_comps aw !! t0 = Some m /\ m !! id = Some x) as (m & Hm & Hx'). { unfold comp in Hx. destruct (a_comps aw !! t0); [eauto|done]. }
      rewrite decide_True in A by (by exists m). rewrite Hx in A. subst r. cbn [returned dropped given made fst app]. rewrite !app_nil_r. unfold vals at 1. cbn. rewrite vals_alter.
      destruct (decide (t0 = t)) as [->|]; [|by rewrite app_nil_r]. unfold vals. rewrite Hm. cbn. pose proof (mv_delete m id) as H. by rewrite Hx' in H.
    + assert (comp aw t0 id = None) as E. { destruct (comp aw t0 id) eqn:E; [|done]. destruct Hn. by eexists. } rewrite E in A. repeat case_decide; by subst r.
  - (* Batch *) destruct L as (L1 & L2 & L3). destruct (decide (registered aw t0 /\ length vs = hi - lo)) as [[[m Hm] Hl]|]; subst r; [|cbn; by rewrite ?app_nil_r].
    cbn [returned dropped given made fst app]. rewrite !app_nil_r.
    assert (vals (a_batch lo hi t0 vs aw) t = mv (default ∅ (alter (fun m => list_to_map (zip (seq lo (hi - lo)) vs) ∪ m) t0 (a_comps aw) !! t))) as ->. { unfold a_batch. by destruct (lo <? hi). }
    rewrite vals_alter, <- Hl. destruct (decide (t0 = t)) as [->|]; [|by rewrite app_nil_r]. unfold vals. rewrite Hm. cbn. apply mv_batch. intros id Hid. rewrite <- (comp_reg aw t m id Hm). apply L3. lia.
  - by subst r.
  - (* WriteComp *) subst r. destruct (decide (has aw t0 id)) as [[x Hx]|Hn].
    + rewrite bool_decide_true by by eexists. cbn [returned dropped given made fst app]. rewrite !app_nil_r. unfold vals at 1. cbn. rewrite vals_alter. destruct (decide (t0 = t)) as [->|]; [|done].
      rewrite Ho. unfold comp in *. unfold vals. destruct (a_comps aw !! t) as [m|]; [|done]. apply mv_insert.
    + rewrite bool_decide_false by done. cbn [returned dropped given made fst app]. by rewrite app_nil_r.
  - by subst r.
  - by subst r.
  - by subst r.
  - by subst r.
  - by destruct A as (l & -> & _).
  - (* StoreGetMut *) subst r. destruct (decide (has aw t0 id)) as [[x Hx]|Hn].
    + rewrite bool_decide_true by by eexists. cbn [returned dropped given made fst app]. rewrite !app_nil_r. unfold vals at 1. cbn. rewrite vals_alter. destruct (decide (t0 = t)) as [->|]; [|done].
      rewrite Ho. unfold comp in *. unfold vals. destruct (a_comps aw !! t) as [m|]; [|done]. apply mv_insert.
    + rewrite bool_decide_false by done. cbn [returned dropped given made fst app]. by rewrite app_nil_r.
  - done.
  - subst r. by destruct (group_refused aw k a b).
  - by destruct (a_open aw q), r as [[]| | |].
  - (* QueryMut *) destruct (a_open aw q) eqn:Eo; [|by subst r|done|by subst r]. destruct A as (l & -> & Hnd & Hl). cbn [returned dropped given made fst app].
    unfold vals at 1. cbn. rewrite map_lookup_imap. unfold vals. destruct (a_comps aw !! t) as [m|] eqn:Hm.
    + cbn. destruct (decide (t ∈ q_muts q)) as [Ht|Ht].
      * assert ((l.*1 ≫= old h t) = (l.*1 ≫= (fun id => opt (m !! id)))) as ->. { apply list_bind_ext; [|done]. intros id. by rewrite Ho, (comp_reg _ _ _ _ Hm). }
        assert ((l.*1 ≫= (fun id => f t id <$> old h t id)) = (l.*1 ≫= (fun id => f t id <$> opt (m !! id)))) as ->. { apply list_bind_ext; [|done]. intros id. by rewrite Ho, (comp_reg _ _ _ _ Hm). }
        apply (mv_visit l.*1 (f t)); [done|]. intros id. rewrite map_lookup_imap. destruct (m !! id) as [v|] eqn:Ev; cbn; [|by case_decide]. rewrite (bool_decide_true (t ∈ q_muts q)) by done. rewrite andb_true_r.
        assert (id ∈ l.*1 <-> q_visits aw q id = true) as E.
        { rewrite elem_of_list_fmap. split; [intros ([i x] & -> & Hin); by apply Hl in Hin as [? _]|]. intros Hvis. destruct (Hq q id Hvis) as [x Hx]. exists (id, x). split; [done|]. by apply Hl. }
        destruct (q_visits aw q id); [by rewrite decide_True by by apply E|]. rewrite decide_False; [done|]. intros H%E. done.
      * rewrite !app_nil_r. assert (map_imap (fun id v => Some (if q_visits aw q id && bool_decide (t ∈ q_muts q) then f t id v else v)) m = m) as ->; [|done].
        apply map_eq. intros id. rewrite map_lookup_imap. rewrite bool_decide_false by done. rewrite andb_false_r. by destruct (m !! id).
    + cbn. rewrite !mv_empty. assert (forall id, old h t id = []) as Hnone. { intros id. rewrite Ho. unfold comp. by rewrite Hm. }
      assert (forall (k : nat -> list V) (ids : list nat), (forall id, k id = []) -> (ids ≫= k) = []) as Hb. { intros k ids Hk. induction ids as [|x ids IH]; [done|]. rewrite bind_cons, Hk. exact IH. }
      case_decide; [|done]. rewrite !Hb; [done|intros id; by rewrite Hnone|done].
  - by subst r.
  - by subst r.
  - subst r. by case_decide.
Qed.
End vals.

(** No call duplicates a value or makes one up (C51): every history, no rules
    of use. *)
From stdpp Require Import prelude list gmap.
From Verif Require Import Base Api ModelSparse ModelEntity ModelGroup ModelWorld ModelQuery ModelStep
  Spec History SpecValue.

(** ** Vectors *)
Lemma swap_perm {A} (l l' : list A) i j : vec_swap l i j = Some l' -> l' ≡ₚ l.
Proof.
  unfold vec_swap. destruct (l !! i) as [x|] eqn:Hi; [|done]. destruct (l !! j) as [y|] eqn:Hj; [|done]. intros [= <-].
  destruct (decide (i = j)) as [->|Hne].
  - assert (x = y) as -> by congruence. rewrite list_insert_insert. by rewrite list_insert_id.
  - apply Permutation_inj. split; [by rewrite !insert_length|].
    set (f := fun k => if decide (k = i) then j else if decide (k = j) then i else k). exists f. split.
    + intros a b. unfold f. repeat case_decide; congruence.
    + intros k. unfold f. pose proof (lookup_lt_Some _ _ _ Hi). pose proof (lookup_lt_Some _ _ _ Hj).
      destruct (decide (k = j)) as [->|]; [|destruct (decide (k = i)) as [->|]].
      * rewrite list_lookup_insert by (by rewrite insert_length). rewrite decide_False by done. rewrite ?decide_True by done. by rewrite Hi.
      * rewrite list_lookup_insert_ne by done. rewrite list_lookup_insert by done. by rewrite Hj.
      * by rewrite !list_lookup_insert_ne by done.
Qed.
Lemma insert_perm {A} (l : list A) i x v : l !! i = Some x -> x :: <[i := v]> l ≡ₚ v :: l.
Proof.
  intros H. rewrite <- (take_drop_middle l i x H) at 2. rewrite insert_take_drop by (by eapply lookup_lt_Some).
  rewrite <- !Permutation_middle. constructor.
Qed.
Lemma swap_remove_perm {A} (l : list A) i x l' : vec_swap_remove l i = Some (x, l') -> x :: l' ≡ₚ l.
Proof.
  unfold vec_swap_remove. destruct (l !! i) as [x'|] eqn:Hi; [|done]. destruct (last l) as [y|] eqn:Hl; [|done]. intros [= -> <-].
  apply last_Some in Hl as [k ->]. rewrite app_length. simpl. replace (length k + 1 - 1) with (length k) by lia.
  destruct (decide (i < length k)) as [Hlt|Hge].
  - rewrite lookup_app_l in Hi by done. rewrite insert_app_l by done. rewrite take_app_le by (by rewrite insert_length). rewrite take_ge by (by rewrite insert_length).
    rewrite (insert_perm k i x y Hi). apply Permutation_cons_append.
  - rewrite lookup_app_r in Hi by lia. destruct (i - length k) eqn:E; [|done]. injection Hi as ->.
    rewrite insert_app_r_alt by lia. rewrite E. simpl. rewrite take_app. apply Permutation_cons_append.
Qed.
Lemma set_perm {A} (l l' : list A) i v : vec_set l i v = Some l' -> exists x, x :: l' ≡ₚ v :: l.
Proof. unfold vec_set. destruct (l !! i) as [x|] eqn:Hi; [|done]. intros [= <-]. exists x. by apply insert_perm. Qed.

(** [m] keeps [I], whatever the outcome *)
Definition holds {S A} (I : S -> Prop) (m : M S A) : Prop := forall s, I s -> I (m s).2.
Lemma holds_bind {S A B} (I : S -> Prop) (m : M S A) (k : A -> M S B) : holds I m -> (forall a, holds I (k a)) -> holds I (bind m k).
Proof. intros Hm Hk s Hs. unfold bind. specialize (Hm s Hs). destruct (m s) as [[a| | |] s']; try done. by apply Hk. Qed.
Lemma holds_get {S B} (I : S -> Prop) (k : S -> M S B) : (forall s, I s -> I (k s s).2) -> holds I (bind get k).
Proof. intros H s Hs. by apply H. Qed.
Lemma holds_ret {S A} (I : S -> Prop) (a : A) : holds I (ret a).
Proof. by intros s. Qed.
Lemma holds_panic {S A} (I : S -> Prop) : holds I (@panic S A).
Proof. by intros s. Qed.
Lemma holds_ub {S A} (I : S -> Prop) : holds I (@ub S A).
Proof. by intros s. Qed.
Lemma holds_lift {S A} (I : S -> Prop) (o : outcome A) : holds I (lift o).
Proof. by intros s. Qed.
Lemma holds_assert {S} (I : S -> Prop) b : holds I (assert b).
Proof. destruct b; by intros s. Qed.
Lemma holds_unwrap {S A} (I : S -> Prop) (x : option A) : holds I (unwrap x).
Proof. destruct x; by intros s. Qed.
Lemma holds_each {S A} (I : S -> Prop) (l : list A) f : (forall x, holds I (f x)) -> holds I (for_each l f).
Proof. intros H. induction l; [apply holds_ret|]. apply holds_bind; [apply H|done]. Qed.
Lemma holds_range {S} (I : S -> Prop) a n f : (forall x, holds I (f x)) -> holds I (for_range a n f).
Proof. intros H. revert a. induction n; intros a; [apply holds_ret|]. apply holds_bind; [apply H|done]. Qed.
Lemma holds_fmap {S A B} (I : S -> Prop) (f : A -> B) (m : M S A) : holds I m -> holds I (fmapM f m).
Proof. intros H. apply holds_bind; [done|]. intros a. apply holds_ret. Qed.
Lemma holds_if {S A} (I : S -> Prop) (b : bool) (m k : M S A) : holds I m -> holds I k -> holds I (if b then m else k).
Proof. by destruct b. Qed.

Definition perm_closed {A} (P : list A -> Prop) : Prop := forall l l', l ≡ₚ l' -> P l' -> P l.
Definition sub_closed {A} (P : list A -> Prop) : Prop := forall l l', l ⊆+ l' -> P l' -> P l.
Lemma sub_perm {A} (P : list A -> Prop) : sub_closed P -> perm_closed P.
Proof. intros H l l' E. apply H. by rewrite E. Qed.

Section sets.
Context {U : Type}.
Variable P : list U -> Prop.
Definition sP (s : sset U) : Prop := P (sdata s).
Lemma holds_swap i j : perm_closed P -> holds sP (ss_swap_by_index i j).
Proof.
  intros HP s Hs. unfold ss_swap_by_index, bind, get, panic, ret, unwrap. unfold sP in *.
  destruct (i =? j); [exact Hs|]. destruct (ss_len s <=? i); [exact Hs|]. destruct (ss_len s <=? j); [exact Hs|].
  destruct (entities s !! i); cbn; [|exact Hs]. destruct (entities s !! j); cbn; [|exact Hs]. destruct (vec_swap (indices s) _ _); [|exact Hs]. cbn.
  destruct (vec_swap (entities s) _ _); [|exact Hs]. cbn. destruct (vec_swap (sdata s) _ _) as [d|] eqn:E; [|exact Hs]. cbn. apply swap_perm in E. by eapply HP.
Qed.
(** removing: what comes out is what is missing *)
Lemma remove_takes e (s : sset U) :
  match ss_remove e s with
  | (Ret (Some v), s') => v :: sdata s' ≡ₚ sdata s
  | (_, s') => sdata s' = sdata s
  end.
Proof.
  unfold ss_remove, bind, get, ret, unwrap, put. destruct (length (indices s) <? e); cbn; [done|]. destruct (indices s !! e) as [[k|]|]; cbn; try done.
  destruct (entities s !! (k - 1)); cbn; [|done]. destruct (last (entities s)); cbn; [|done]. destruct (vec_swap (indices s) _ _) as [ind1|]; cbn; [|done].
  destruct (vec_set ind1 e None); cbn; [|done]. destruct (vec_swap_remove (entities s) _) as [re|]; cbn; [|done].
  destruct (vec_swap_remove (sdata s) (k - 1)) as [[x d]|] eqn:E; cbn; [|done]. by eapply swap_remove_perm.
Qed.
Lemma holds_remove e : sub_closed P -> holds sP (ss_remove e).
Proof.
  intros HP s Hs. pose proof (remove_takes e s) as H. unfold sP in *. destruct (ss_remove e s) as [[[v|]| | |] s']; cbn [snd]; try (by rewrite H).
  eapply HP; [|exact Hs]. rewrite <- H. apply submseteq_cons. done.
Qed.
Lemma holds_cs_remove e : sub_closed P -> holds sP (cs_remove e).
Proof. intros HP. apply holds_bind; [by apply holds_remove|]. intros r. apply holds_bind; [apply holds_unwrap|]. intros _. apply holds_ret. Qed.
(** adding: one value more, at most one less *)
Lemma add_takes e v (s : sset U) :
  match ss_add e v s with
  | (Ret _, s') => exists d, sdata s' ++ d ≡ₚ v :: sdata s /\ length d <= 1
  | (_, s') => sdata s' = sdata s
  end.
Proof.
  unfold ss_add, bind, get, put, unwrap, ret. cbn. destruct (grow (indices s) e !! e) as [[k|]|]; cbn; [| |done].
  - destruct (vec_set (sdata s) (k - 1) v) as [d|] eqn:E; cbn; [|done]. apply set_perm in E as [x E]. exists [x]. split; [|done]. rewrite <- Permutation_cons_append. done.
  - cbn. exists []. split; [|simpl; lia]. rewrite app_nil_r. symmetry. apply Permutation_cons_append.
Qed.
End sets.

Section groups.
Context {V : Type}.
Variables PA PB : list V -> Prop.
Definition gP {D} (c : gctx V D) : Prop := PA (sdata (gc_a c)) /\ PB (sdata (gc_b c)).
Lemma holds_on_a {D A} (m : M (sset V) A) : holds (sP PA) m -> holds (@gP D) (on_a m).
Proof. intros H c [H1 H2]. unfold on_a. specialize (H (gc_a c) H1). destruct (m (gc_a c)) as [o a]. done. Qed.
Lemma holds_on_b {D A} (m : M (sset V) A) : holds (sP PB) m -> holds (@gP D) (on_b m).
Proof. intros H c [H1 H2]. unfold on_b. specialize (H (gc_b c) H2). destruct (m (gc_b c)) as [o a]. done. Qed.
Lemma holds_on_d {D A} (m : M D A) : holds (@gP D) (on_d m).
Proof. intros c [H1 H2]. unfold on_d. destruct (m (gc_d c)) as [o a]. done. Qed.
Hypothesis HA : perm_closed PA.
Hypothesis HB : perm_closed PB.
Ltac hg := repeat first
  [ apply holds_ret | apply holds_panic | apply holds_lift | apply holds_assert | apply holds_unwrap | apply holds_on_d
  | apply holds_on_a; by apply holds_swap | apply holds_on_b; by apply holds_swap
  | apply holds_range; intros ? | apply holds_if
  | match goal with |- holds _ (match ?x with _ => _ end) => destruct x end
  | match goal with |- holds _ (bind get ?k) => apply (holds_bind gP get k); [by intros ?|intros ?] end
  | apply holds_bind; [|intros ?] ].
Lemma holds_full_add id : holds gP (full_add (V := V) id). Proof. unfold full_add. hg. Qed.
Lemma holds_full_remove id : holds gP (full_remove (V := V) id). Proof. unfold full_remove. hg. Qed.
Lemma holds_full_make : holds gP (full_make (V := V)). Proof. unfold full_make. hg. Qed.
Lemma holds_part_add id : holds gP (part_add (V := V) id). Proof. unfold part_add. hg. Qed.
Lemma holds_part_remove id : holds gP (part_remove (V := V) id). Proof. unfold part_remove. hg. Qed.
Lemma holds_part_make : holds gP (part_make (V := V)). Proof. unfold part_make. hg. Qed.
End groups.

Section world.
Context {V : Type}.
Implicit Types (w : world V) (t : nat).

(** the values of type [t] in the world *)
Definition held t w : list V := match w_comps w !! t with Some st => sdata (st_set st) | None => [] end.
Variable P : nat -> list V -> Prop.
Definition wP w : Prop := forall t, P t (held t w).
Lemma held_set t u st w : held t (set_comps (<[u := st]> (w_comps w)) w) = if decide (t = u) then sdata (st_set st) else held t w.
Proof. unfold held. cbn. case_decide as E; [subst; by rewrite lookup_insert|]. by rewrite lookup_insert_ne. Qed.
Lemma held_groups t g w : held t (set_groups g w) = held t w.
Proof. done. Qed.
Lemma wP_put u s' w st : wP w -> w_comps w !! u = Some st -> P u (sdata s') -> wP (set_comps (<[u := St (st_ty st) s']> (w_comps w)) w).
Proof. intros H Hu Hs t. rewrite held_set. case_decide; [subst; done|apply H]. Qed.
Lemma holds_storage {A} u (m : M (sset V) A) : holds (sP (P u)) m -> holds wP (storage_mut u m).
Proof.
  intros H w Hw. unfold storage_mut. destruct (w_comps w !! u) as [st|] eqn:E; [|done]. destruct (st_ty st =? u); [|done].
  specialize (H (st_set st)). destruct (m (st_set st)) as [o s']. cbn [snd] in *. apply wP_put; [done|done|]. apply H. specialize (Hw u). unfold held in Hw. by rewrite E in Hw.
Qed.
Lemma holds_dyn {A} u (m : M (sset V) A) : holds (sP (P u)) m -> holds wP (dyn_mut u m).
Proof.
  intros H w Hw. unfold dyn_mut. destruct (w_comps w !! u) as [st|] eqn:E; [|done].
  specialize (H (st_set st)). destruct (m (st_set st)) as [o s']. cbn [snd] in *. apply wP_put; [done|done|]. apply H. specialize (Hw u). unfold held in Hw. by rewrite E in Hw.
Qed.
Lemma holds_em {A} (m : M em A) : holds wP (on_em m).
Proof. intros w Hw. unfold on_em. destruct (m (w_em w)). exact Hw. Qed.
Lemma holds_group i ff fp fn : (forall a b, holds (gP (P a) (P b)) ff) -> (forall a b, holds (gP (P a) (P b)) fp) -> holds wP (run_group_at i ff fp fn).
Proof.
  intros Hf Hp w Hw. unfold run_group_at. destruct (w_groups w !! i) as [[d|d|d]|]; [| | |done].
  - destruct (w_comps w !! fd_a d) as [sa|] eqn:Ea; [|done]. destruct (fd_a d =? fd_b d); [done|]. destruct (w_comps w !! fd_b d) as [sb|] eqn:Eb; [|done].
    specialize (Hf (fd_a d) (fd_b d) (GC d (st_set sa) (st_set sb))). destruct (ff _) as [o c]. cbn [snd] in *.
    assert (P (fd_a d) (sdata (gc_a c)) /\ P (fd_b d) (sdata (gc_b c))) as [H1 H2].
    { apply Hf. pose proof (Hw (fd_a d)) as H1. pose proof (Hw (fd_b d)) as H2. unfold held in H1, H2. rewrite Ea in H1. rewrite Eb in H2. done. }
    intros t. rewrite held_groups. unfold held. cbn. destruct (decide (t = fd_b d)) as [->|]; [by rewrite lookup_insert|rewrite lookup_insert_ne by done].
    destruct (decide (t = fd_a d)) as [->|]; [by rewrite lookup_insert|rewrite lookup_insert_ne by done]. apply Hw.
  - destruct (w_comps w !! pd_a d) as [sa|] eqn:Ea; [|done]. destruct (pd_a d =? pd_b d); [done|]. destruct (w_comps w !! pd_b d) as [sb|] eqn:Eb; [|done].
    specialize (Hp (pd_a d) (pd_b d) (GC d (st_set sa) (st_set sb))). destruct (fp _) as [o c]. cbn [snd] in *.
    assert (P (pd_a d) (sdata (gc_a c)) /\ P (pd_b d) (sdata (gc_b c))) as [H1 H2].
    { apply Hp. pose proof (Hw (pd_a d)) as H1. pose proof (Hw (pd_b d)) as H2. unfold held in H1, H2. rewrite Ea in H1. rewrite Eb in H2. done. }
    intros t. rewrite held_groups. unfold held. cbn.
    destruct (decide (t = pd_a d)) as [->|]; [by rewrite lookup_insert|rewrite lookup_insert_ne by done]. apply Hw.
  - destruct (w_comps w !! nd_a d); [|done]. destruct (w_comps w !! nd_b d); [|done]. destruct (fn _) as [o c]. exact Hw.
Qed.
Lemma holds_groups_add id : (forall t, perm_closed (P t)) -> forall i, holds wP (run_group_at i (full_add id) (part_add id) (non_add id)).
Proof. intros HP i. apply holds_group; intros a b; [by apply holds_full_add|by apply holds_part_add]. Qed.
Lemma holds_groups_remove id : (forall t, perm_closed (P t)) -> forall i, holds wP (run_group_at i (full_remove id) (part_remove id) (non_remove id)).
Proof. intros HP i. apply holds_group; intros a b; [by apply holds_full_remove|by apply holds_part_remove]. Qed.
Lemma holds_make k a b : (forall t, perm_closed (P t)) -> holds wP (make_group k a b).
Proof.
  intros HP. unfold make_group. intros w Hw. unfold bind at 1. cbn. apply (holds_bind wP (assert _)); [apply holds_assert|intros _|done].
  apply holds_bind; [apply holds_assert|intros _]. intros w1 H1. unfold bind, put. apply holds_group; [intros; by apply holds_full_make|intros; by apply holds_part_make|]. exact Hw.
Qed.
Lemma holds_remove_entity id ord : (forall t, sub_closed (P t)) -> holds wP (remove_entity id ord).
Proof.
  intros HP. assert (forall t, perm_closed (P t)) as HP' by (intros t; by apply sub_perm). unfold remove_entity.
  apply (holds_bind wP get); [by intros ?|intros w].
  apply holds_bind; [apply holds_lift|intros b]. apply holds_bind; [apply holds_assert|intros _]. apply holds_bind; [apply holds_lift|intros gs].
  apply holds_bind.
  { apply holds_each. intros i. apply holds_group; intros a b'.
    - apply holds_bind; [by apply holds_full_remove|intros _]. apply holds_bind; [apply holds_on_a; by apply holds_cs_remove|intros _]. apply holds_on_b; by apply holds_cs_remove.
    - apply holds_bind; [by apply holds_part_remove|intros _]. apply holds_on_a; by apply holds_cs_remove. }
  intros _. apply (holds_bind wP get); [by intros ?|intros w2]. apply holds_bind; [|intros _; apply holds_em]. apply holds_each. intros t. apply holds_dyn. by apply holds_cs_remove.
Qed.
End world.

Section step.
Context {V : Type}.
Implicit Types (w : world V) (t : nat) (o : op V).
Definition same w0 : nat -> list V -> Prop := fun t l => l ≡ₚ held t w0.
Lemma same_closed w0 t : perm_closed (same w0 t).
Proof. intros l l' E H. unfold same in *. by rewrite E. Qed.
Lemma wP_same w0 : wP (same w0) w0.
Proof. intros t. unfold same. reflexivity. Qed.
(** calls that give and take nothing *)
Lemma just_same o w t : holds (wP (same w)) (step o) -> given t (o, (step o w).1) = [] -> returned t (o, (step o w).1) = [] ->
  exists d, held t (step o w).2 ++ returned t (o, (step o w).1) ++ d ≡ₚ held t w ++ given t (o, (step o w).1) /\ length d <= length (given t (o, (step o w).1)).
Proof. intros H Hg Hr. exists []. rewrite Hg, Hr. cbn [app]. rewrite !app_nil_r. split; [|done]. exact (H w (wP_same w) t). Qed.
(** a call refused *)
Lemma refused_same o w t : (step o w).2 = w -> returned t (o, (step o w).1) = [] ->
  exists d, held t (step o w).2 ++ returned t (o, (step o w).1) ++ d ≡ₚ held t w ++ given t (o, (step o w).1) /\ length d <= length (given t (o, (step o w).1)).
Proof. intros H Hr. exists (given t (o, (step o w).1)). rewrite H, Hr. done. Qed.
Lemma storage_held {A} u t (m : M (sset V) A) w st : w_comps w !! u = Some st -> (st_ty st =? u) = true ->
  held t (storage_mut u m w).2 = if decide (t = u) then sdata (m (st_set st)).2 else held t w.
Proof. intros Hu Ht. unfold storage_mut. rewrite Hu, Ht. destruct (m (st_set st)) as [x s']. cbn [snd]. by rewrite held_set. Qed.
Lemma poke_held u t i v w st x : w_comps w !! u = Some st -> (st_ty st =? u) = true -> sdata (st_set st) !! i = Some x ->
  exists d, held t (storage_mut u (let! s := get in put (ss_poke i v s)) w).2 ++ d ≡ₚ held t w ++ (if decide (u = t) then [v] else []) /\ length d <= length (if decide (u = t) then [v] else []).
Proof.
  intros Hu Ht Hi. rewrite (storage_held u t _ w st Hu Ht). destruct (decide (t = u)) as [->|Hne].
  - rewrite decide_True by done. exists [x]. split; [|done]. unfold held. rewrite Hu. cbn. rewrite <- !Permutation_cons_append. by apply insert_perm.
  - rewrite decide_False by done. exists []. by rewrite !app_nil_r.
Qed.
Lemma attach_values t id v w u : exists d, held u (attach_component t id v w).2 ++ d ≡ₚ held u w ++ (if decide (t = u) then [v] else []) /\ length d <= length (if decide (t = u) then [v] else []).
Proof.
  assert (forall w', (forall u, held u w' = held u w) -> exists d, held u w' ++ d ≡ₚ held u w ++ (if decide (t = u) then [v] else []) /\ length d <= length (if decide (t = u) then [v] else [])) as Hno.
  { intros w' E. exists (if decide (t = u) then [v] else []). by rewrite E. }
  unfold attach_component, bind at 1, get. unfold bind at 1, lift. destruct (exist id w) as [[]| | |]; try (by apply Hno). unfold assert, bind at 1, ret. cbn.
  unfold entity_attach, bind at 1, get. unfold assert, bind at 1, ret, panic. destruct (has_registered t w); [|by apply Hno]. unfold bind at 1.
  destruct (storage_mut t (ss_add id v) w) as [r w1] eqn:E1.
  assert (exists d, held u w1 ++ d ≡ₚ held u w ++ (if decide (t = u) then [v] else []) /\ length d <= length (if decide (t = u) then [v] else [])) as (d & Hd & Hl).
  { unfold storage_mut in E1. destruct (w_comps w !! t) as [st|] eqn:Et; [|injection E1 as <- <-; by apply Hno]. destruct (st_ty st =? t); [|injection E1 as <- <-; by apply Hno].
    pose proof (add_takes id v (st_set st)) as Ha. destruct (ss_add id v (st_set st)) as [r' s']. injection E1 as <- <-. rewrite held_set. cbn [st_set].
    destruct (decide (u = t)) as [->|Hne]; [rewrite decide_True by done|rewrite decide_False by done; exists []; by rewrite !app_nil_r].
    unfold held. rewrite Et. destruct r' as [[]| | |]; try (exists [v]; by rewrite Ha). destruct Ha as (d & Hd & Hl). exists d. split; [|done]. rewrite Hd. apply Permutation_cons_append. }
  destruct r as [[]| | |]; try (exists d; done). unfold bind, get. exists d. split; [|done]. rewrite <- Hd. f_equiv.
  apply (holds_each (wP (same w1)) (groups_with t (w_groups w1) 0)); [|apply wP_same]. intros i. apply holds_groups_add, same_closed.
Qed.
Lemma detach_values t id w u : held u (detach_component t id w).2 ++ (match (detach_component t id w).1 with Ret (Some v) => if decide (t = u) then [v] else [] | _ => [] end) ≡ₚ held u w.
Proof.
  unfold detach_component, entity_detach, bind, get, lift, assert, ret, panic. destruct (exist id w) as [[]| | |]; try (by rewrite app_nil_r).
  destruct (has_registered t w); [|by rewrite app_nil_r].
  set (m := for_each _ _). assert (forall u, held u (m w).2 ≡ₚ held u w) as Hm.
  { apply (holds_each (wP (same w)) (groups_with t (w_groups w) 0)); [|apply wP_same]. intros i. apply holds_groups_remove, same_closed. }
  clearbody m. destruct (m w) as [[[]| | |] w1]; cbn [snd fst] in *; try (by rewrite app_nil_r). rewrite <- Hm. clear Hm m w.
  unfold storage_mut. destruct (w_comps w1 !! t) as [st|] eqn:Et; [|by rewrite app_nil_r]. destruct (st_ty st =? t); [|by rewrite app_nil_r].
  pose proof (remove_takes id (st_set st)) as Ha. destruct (ss_remove id (st_set st)) as [r s']. cbn [fst snd]. rewrite held_set. cbn [st_set].
  destruct (decide (u = t)) as [->|Hne].
  - unfold held. rewrite Et. destruct r as [[x|]| | |]; try (by rewrite app_nil_r, Ha). rewrite decide_True by done. rewrite <- Ha. symmetry. apply Permutation_cons_append.
  - destruct r as [[x|]| | |]; try (by rewrite app_nil_r). rewrite decide_False by done. by rewrite app_nil_r.
Qed.
Lemma batch_values t lo hi vs w u : exists d, held u (entities_attach lo hi t vs w).2 ++ d ≡ₚ held u w ++ (if decide (t = u) then vs else []) /\ length d <= length (if decide (t = u) then vs else []).
Proof.
  assert (forall w', (forall u, held u w' = held u w) -> exists d, held u w' ++ d ≡ₚ held u w ++ (if decide (t = u) then vs else []) /\ length d <= length (if decide (t = u) then vs else [])) as Hno.
  { intros w' E. exists (if decide (t = u) then vs else []). by rewrite E. }
  unfold entities_attach, assert, bind at 1. destruct (length vs =? hi - lo); [|by apply Hno]. cbn [ret].
  unfold storage_mut. destruct (w_comps w !! t) as [st|] eqn:Et; [|by apply Hno]. destruct (st_ty st =? t); [|by apply Hno].
  unfold ss_add_batch, bind, get, assert, put, panic, ret. destruct (length (seq lo (hi - lo)) =? length vs); cbn [snd].
  - rewrite held_set. cbn. destruct (decide (u = t)) as [->|Hne]; [rewrite decide_True by done|rewrite decide_False by done]; exists []; rewrite !app_nil_r; [|done].
    split; [unfold held; by rewrite Et|simpl; lia].
  - apply Hno. intros x. rewrite held_set. cbn. destruct (decide (x = t)) as [->|]; [|done]. unfold held. by rewrite Et.
Qed.
Lemma write_values t id v w u : exists d, held u (entity_component_write t id v w).2 ++ d ≡ₚ held u w ++ (if decide (t = u) then [v] else []) /\ length d <= length (if decide (t = u) then [v] else []).
Proof.
  assert (exists d, held u w ++ d ≡ₚ held u w ++ (if decide (t = u) then [v] else []) /\ length d <= length (if decide (t = u) then [v] else [])) as Hno by by eexists.
  unfold entity_component_write, bind at 1, get. unfold bind at 1, lift, components_read. destruct (w_comps w !! t) as [st|] eqn:Et; [|exact Hno]. destruct (st_ty st =? t) eqn:Ety; [|exact Hno].
  destruct (ss_exist (st_set st) id); [|exact Hno]. unfold bind at 1, ss_get_unchecked_loc. destruct (indices (st_set st) !! id) as [[k|]|]; [|exact Hno|exact Hno].
  destruct (k - 1 <? length (sdata (st_set st))) eqn:El; [|exact Hno]. apply Nat.ltb_lt, lookup_lt_is_Some in El as [x Hx].
  destruct (poke_held t u (k - 1) v w st x Et Ety Hx) as (d & Hd & Hl). exists d. split; [|done]. rewrite <- Hd. f_equiv. unfold bind at 1. by destruct (storage_mut t _ w) as [[[]| | |] w'].
Qed.
Lemma get_mut_values t id v w u : exists d, held u (storage_get_mut t id v w).2 ++ d ≡ₚ held u w ++ (if decide (t = u) then [v] else []) /\ length d <= length (if decide (t = u) then [v] else []).
Proof.
  assert (exists d, held u w ++ d ≡ₚ held u w ++ (if decide (t = u) then [v] else []) /\ length d <= length (if decide (t = u) then [v] else [])) as Hno by by eexists.
  unfold storage_get_mut, bind at 1, get. unfold bind at 1, lift, components_read. destruct (w_comps w !! t) as [st|] eqn:Et; [|exact Hno]. destruct (st_ty st =? t) eqn:Ety; [|exact Hno].
  unfold bind at 1, ss_get_loc. destruct (indices (st_set st) !! id) as [[k|]|]; [|exact Hno|exact Hno].
  destruct (k - 1 <? length (sdata (st_set st))) eqn:El; [|exact Hno]. apply Nat.ltb_lt, lookup_lt_is_Some in El as [x Hx].
  destruct (poke_held t u (k - 1) v w st x Et Ety Hx) as (d & Hd & Hl). exists d. split; [|done]. rewrite <- Hd. f_equiv. unfold bind at 1. by destruct (storage_mut t _ w) as [[[]| | |] w'].
Qed.
Lemma data_set_values t i v w u : exists d, held u (storage_data_set t i v w).2 ++ d ≡ₚ held u w ++ (if decide (t = u) then [v] else []) /\ length d <= length (if decide (t = u) then [v] else []).
Proof.
  assert (exists d, held u w ++ d ≡ₚ held u w ++ (if decide (t = u) then [v] else []) /\ length d <= length (if decide (t = u) then [v] else [])) as Hno by by eexists.
  unfold storage_data_set, bind at 1, get. unfold bind at 1, lift, components_read. destruct (w_comps w !! t) as [st|] eqn:Et; [|exact Hno]. destruct (st_ty st =? t) eqn:Ety; [|exact Hno].
  unfold bind at 1, assert. destruct (i <? length (sdata (st_set st))) eqn:El; [|exact Hno]. cbn [ret]. apply Nat.ltb_lt, lookup_lt_is_Some in El as [x Hx].
  destruct (poke_held t u i v w st x Et Ety Hx) as (d & Hd & Hl). exists d. split; [|done]. rewrite <- Hd. f_equiv. unfold bind at 1. by destruct (storage_mut t _ w) as [[[]| | |] w'].
Qed.
Lemma fmap_snd {S A B} (f : A -> B) (m : M S A) s : (fmapM f m s).2 = (m s).2.
Proof. unfold fmapM, bind. by destruct (m s) as [[]]. Qed.
Lemma fmap_fst {S A B} (f : A -> B) (m : M S A) s : (fmapM f m s).1 = match (m s).1 with Ret a => Ret (f a) | Panic => Panic | UB => UB | Block => Block end.
Proof. unfold fmapM, bind. by destruct (m s) as [[]]. Qed.
Lemma holds_register t (P : nat -> list V -> Prop) : holds (wP P) (register t).
Proof.
  unfold register. apply holds_get. intros w Hw. unfold bind, assert. destruct (negb (has_registered t w)) eqn:E; [|exact Hw]. cbn. intros u. rewrite held_set. case_decide as Eu; [|apply Hw].
  subst. cbn. specialize (Hw t). unfold held in Hw. apply negb_true_iff in E. unfold has_registered in E. apply bool_decide_eq_false, eq_None_not_Some in E. by rewrite E in Hw.
Qed.
Lemma holds_via {A} t (f : sset V -> outcome A) (P : nat -> list V -> Prop) : holds (wP P) (via_storage t f).
Proof.
  unfold via_storage. apply (holds_bind _ get); [by intros ?|intros w]. apply holds_bind; [apply holds_lift|intros os]. destruct os; [|apply holds_ret].
  apply holds_bind; [apply holds_lift|intros a]. apply holds_ret.
Qed.
Lemma holds_read t id (P : nat -> list V -> Prop) : holds (wP P) (entity_component_read t id).
Proof.
  unfold entity_component_read. apply (holds_bind _ get); [by intros ?|intros w]. apply holds_bind; [apply holds_lift|intros os]. destruct os; [|apply holds_ret].
  destruct (ss_exist _ _); [|apply holds_ret]. apply holds_bind; [apply holds_lift|intros i]. destruct (sdata s !! i); [apply holds_ret|apply holds_ub].
Qed.
(** calls that touch no values *)
Definition touches o : bool :=
  match o with Attach _ _ _ | Detach _ _ | BatchAttach _ _ _ _ | WriteComp _ _ _ | StoreGetMut _ _ _ | StoreDataSet _ _ _ | QueryMut _ _ | RemoveEntity _ _ => true | _ => false end.
Lemma quiet_same o w t : touches o = false -> held t (step o w).2 ≡ₚ held t w.
Proof.
  intros Ho. pose proof (same_closed w) as Hc. cut (holds (wP (same w)) (step o)); [intros H; exact (H w (wP_same w) t)|].
  destruct o; try discriminate Ho; cbn [step].
  - apply holds_fmap, holds_register.
  - apply (holds_bind _ get); [by intros ?|intros w1]. apply holds_ret.
  - apply holds_fmap. unfold create_entity. apply holds_bind; [apply holds_em|intros id]. apply (holds_bind _ get); [by intros ?|intros w1]. apply holds_bind; [apply holds_lift|intros b]. destruct b; [apply holds_ret|apply holds_panic].
  - apply holds_fmap, holds_em.
  - apply (holds_bind _ get); [by intros ?|intros w1]. apply holds_fmap, holds_lift.
  - apply holds_fmap, holds_read.
  - apply holds_fmap, holds_via.
  - apply holds_fmap, holds_via.
  - apply holds_fmap, holds_via.
  - apply holds_fmap, holds_via.
  - apply holds_fmap, holds_via.
  - by apply holds_fmap, holds_make.
  - apply (holds_bind _ get); [by intros ?|intros w1]. apply holds_fmap, holds_lift.
  - apply holds_fmap. unfold register_resource. apply holds_get. intros w1 Hw. exact Hw.
  - apply holds_fmap. unfold resource_read. apply (holds_bind _ get); [by intros ?|intros w1]. destruct (w_res w1 !! r) as [x|]; [|apply holds_ret]. destruct (rv_ty x =? r); [apply holds_ret|apply holds_ub].
  - apply holds_fmap. unfold resource_write. apply holds_get. intros w1 Hw. destruct (w_res w1 !! r) as [x|]; [|exact Hw]. destruct (rv_ty x =? r); exact Hw.
Qed.
(** what one call does to the values of a type *)
Lemma step_values o w t : in_place o = false -> (forall id ord, o <> RemoveEntity id ord) ->
  exists d, held t (step o w).2 ++ returned t (o, (step o w).1) ++ d ≡ₚ held t w ++ given t (o, (step o w).1) /\ length d <= length (given t (o, (step o w).1)).
Proof.
  intros Ho Hr. assert (forall (d : list V) g, held t (step o w).2 ++ d ≡ₚ held t w ++ g -> given t (o, (step o w).1) = g -> returned t (o, (step o w).1) = [] -> length d <= length g ->
    exists d, held t (step o w).2 ++ returned t (o, (step o w).1) ++ d ≡ₚ held t w ++ given t (o, (step o w).1) /\ length d <= length (given t (o, (step o w).1))) as Hgo.
  { intros d g E Eg Er Hl. exists d. by rewrite Eg, Er. }
  destruct o; try discriminate Ho; try (exfalso; by eapply Hr); try (apply (Hgo [] []); [rewrite !app_nil_r; by apply quiet_same|reflexivity|reflexivity|reflexivity]).
  - destruct (attach_values t0 id v w t) as (d & Hd & Hl). eapply (Hgo d); [|done|done|exact Hl]. cbn [step]. by rewrite fmap_snd.
  - pose proof (detach_values t0 id w t) as Hd. exists []. split; [|apply Nat.le_0_l]. change (given t (Detach t0 id, (step (Detach t0 id) w).1)) with (@nil V). rewrite !app_nil_r. rewrite <- Hd. cbn [step]. rewrite fmap_snd, fmap_fst. f_equiv.
    unfold returned. by destruct ((detach_component t0 id w).1) as [[]| | |].
  - destruct (batch_values t0 lo hi vs w t) as (d & Hd & Hl). eapply (Hgo d); [|done|done|exact Hl]. cbn [step]. by rewrite fmap_snd.
  - destruct (write_values t0 id v w t) as (d & Hd & Hl). eapply (Hgo d); [|done|done|exact Hl]. cbn [step]. by rewrite fmap_snd.
  - destruct (get_mut_values t0 id v w t) as (d & Hd & Hl). eapply (Hgo d); [|done|done|exact Hl]. cbn [step]. by rewrite fmap_snd.
  - destruct (data_set_values t0 i v w t) as (d & Hd & Hl). eapply (Hgo d); [|done|done|exact Hl]. cbn [step]. by rewrite fmap_snd.
Qed.
Lemma remove_entity_values id ord w t : held t (step (RemoveEntity id ord) w).2 ⊆+ held t w.
Proof.
  cbn [step]. rewrite fmap_snd. apply (holds_remove_entity (fun t l => l ⊆+ held t w)); [|intros u; done]. intros u l l' H1 H2. by transitivity l'.
Qed.
(** changing values in place *)
Lemma poke_len t w u i g : length (held t (poke w u i g)) = length (held t w).
Proof.
  unfold poke. destruct (w_comps w !! u) as [st|] eqn:E; [|done]. destruct (sdata (st_set st) !! i); [|done]. rewrite held_set. case_decide; [|done].
  subst. unfold held. rewrite E. cbn. by rewrite insert_length.
Qed.
Lemma poke_item_len t f id it w : length (held t (poke_item f id it w)) = length (held t w).
Proof. revert w. induction it as [m u i|a IHa b IHb|a IHa b IHb c IHc|a IHa b IHb c IHc d IHd|a IHa b IHb c IHc d IHd e IHe]; intros w; cbn [poke_item]; [destruct m; [apply poke_len|reflexivity]|..].
  - by rewrite IHb, IHa.
  - by rewrite IHc, IHb, IHa.
  - by rewrite IHd, IHc, IHb, IHa.
  - by rewrite IHe, IHd, IHc, IHb, IHa.
Qed.
Lemma drive_len t n J f st w : length (held t (drive n J f st w).2) = length (held t w).
Proof.
  revert st w. induction n as [|n IH]; intros st w; cbn [drive]; [done|]. destruct (qi_next_id J w st) as [[[[id it]|]| | |] st']; try done.
  destruct (deref w it); [|done]. specialize (IH st' (poke_item f id it w)). rewrite poke_item_len in IH. by destruct (drive n J f st' (poke_item f id it w)) as [[]].
Qed.
Lemma in_place_len t q f w : length (held t (step (QueryMut q f) w).2) = length (held t w).
Proof. cbn [step]. rewrite fmap_snd. unfold run_query_mut. destruct (query_open w q []) as [[J| | |] ?]; try done. apply drive_len. Qed.
End step.

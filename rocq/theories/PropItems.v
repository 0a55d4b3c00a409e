(** C41: how long the items of a query stay valid.  An item contains
    references [&T] or [&mut T]: positions in the array of type [T].  Rust lets
    them be used as long as the world is borrowed (src/query/mod.rs:71,
    [Item = &'a T] with [&'a World]), also after the iterator, and with it the
    guard on the storage, is gone. *)
From stdpp Require Import prelude list gmap.
From Verif Require Import Base Api ModelSparse ModelEntity ModelGroup ModelWorld ModelQuery ModelStep ModelConc SpecConc
  Spec History Rules Samples ProofSparse ProofWorld ProofMain ProofHistory PropEntity PropComp PropQuery PropGroup
  ProofWf PropSafe ProofTerm ProofConc ProofConc2 ProofConc3
  ProofConc4 ProofConc5 ProofConc6 ProofConc7 ProofConc8 ProofConc9 ProofConc10 ProofConc11 PropConc PropConc2.

Section items.
Context {V : Type}.
Implicit Types (w : world V) (c : conf V) (cl : client V) (t : nat).

(** The component at position [p] of the array of type [t] belongs to the
    entity [id]. *)
Definition belongs w t p id : Prop := exists st, w_comps w !! t = Some st /\ entities (st_set st) !! p = Some id.
(** the same entities at the same positions *)
Definition layout t w w' : Prop :=
  (fun st => (indices (st_set st), entities (st_set st))) <$> (w_comps w !! t) =
  (fun st => (indices (st_set st), entities (st_set st))) <$> (w_comps w' !! t).
Lemma layout_belongs t w w' p id : layout t w w' -> belongs w t p id -> belongs w' t p id.
Proof.
  unfold layout. intros H (st & E & Ep). rewrite E in H. simpl in H. destruct (w_comps w' !! t) as [st'|] eqn:E'; [|done].
  injection H as _ H. exists st'. split; [done|]. by rewrite <- H.
Qed.
Lemma part_layout t w w' : part_eq (LStore t) w w' -> layout t w w'.
Proof. simpl. unfold layout. by intros ->. Qed.

(** A program that does not rearrange the storage of [t] before it takes or
    drops a guard on it. *)
Fixpoint still (w0 : world V) t {A} (p : prog V A) : Prop :=
  match p with
  | PAcq l x k | PRel l x k => l = LStore t \/ still w0 t k
  | PAct _ f k => forall w, same_shape w0 w -> layout t w (f w).2 /\ match (f w).1 with Ret b => still w0 t (k b) | _ => True end
  | _ => True
  end.
Lemma still_wp w0 t pn h0 mine {A} (p : prog V A) Q : wp w0 nolt False pn h0 mine p Q -> (forall x, (LStore t, x) ∉ mine ++ h0) -> still w0 t p.
Proof.
  revert mine. induction p as [a| | | |l x k IH|l x k IH|B lab f k IH]; intros mine; simpl; try done.
  - intros [_ H] Hn. destruct (decide (l = LStore t)) as [->|Hl]; [by left|right]. eapply IH; [exact H|]. intros y. simpl.
    rewrite elem_of_cons. intros [[= E _]|Hy]; [by apply Hl|]. by apply (Hn y).
  - intros [_ H] Hn. destruct (decide (l = LStore t)) as [->|Hl]; [by left|right]. eapply IH; [exact H|]. intros y Hy. apply (Hn y).
    rewrite elem_of_app in *. destruct Hy as [Hy|Hy]; [left; by eapply drop_hold_subset|by right].
  - intros [[HC _] H] Hn w Hw. destruct (HC w Hw) as (_ & HP & _). split; [apply part_layout, HP, Hn|].
    specialize (H w (conj Hw (False_ind _))). destruct ((f w).1); try done. eapply IH; [exact H|done].
Qed.
Lemma still_rels w0 t {A} h (k : prog V A) : still w0 t k -> still w0 t (rels h k).
Proof. intros H. induction h as [|[l x] h IH]; simpl; [done|]. by right. Qed.
Lemma still_catch w0 t {A B} (p : prog V A) (k : outcome A -> list (lock * bool) -> prog V B) :
  still w0 t p -> (forall o m, still w0 t (k o m)) -> forall mine, still w0 t (catch mine p k).
Proof.
  intros Hp Hk. induction p as [a| | | |l x p IH|l x p IH|C lab f kk IH]; intros mine; simpl in *; try done.
  - by apply still_rels.
  - destruct Hp as [->|Hp]; [by left|right; by apply IH].
  - destruct Hp as [->|Hp]; [by left|right; by apply IH].
  - intros w Hw. destruct (Hp w Hw) as [H1 H2]. destruct (f w) as [[b| | |] w']; simpl in *; (split; [done|]); try done.
    + by apply IH.
    + by apply still_rels.
Qed.
Lemma layout_refl t w : layout t w w.
Proof. done. Qed.
Lemma rewritten_layout t w w' : rewritten w w' -> layout t w w'.
Proof. intros (_ & _ & H & _). apply H. Qed.

Lemma still_compile w0 t cl : forall e, still w0 t (compile e cl).
Proof.
  assert (forall e : list (obj V), still w0 t (rels (all_holds e) (PRet tt))) as HS by (intros e; by apply still_rels).
  induction cl as [|o k IH|id k IH|k IH|n k IH|j u v k IH|j u k IH|j u vs k IH|u x k IH|u id x k IH|r x k IH|j o k IH|q k IH|j cc k IH|j k IH];
    intros e; cbn [compile].
  - apply HS.
  - apply still_catch; [|intros; apply IH]. apply (still_wp w0 t True [] [] _ (fun _ _ => True)); [|intros x Hx; by apply elem_of_nil in Hx].
    apply wp_call; [by apply any_op|done].
  - apply still_catch; [|intros; apply IH]. apply (still_wp w0 t True [] [] _ (fun _ _ => True)); [|intros x Hx; by apply elem_of_nil in Hx].
    by apply wp_entity.
  - apply still_catch; [|intros; apply IH]. apply (still_wp w0 t True [] [] _ (fun _ _ => True)); [|intros x Hx; by apply elem_of_nil in Hx].
    by apply wp_new_entity.
  - apply still_catch; [|intros; apply IH]. apply (still_wp w0 t True [] [] _ (fun _ _ => True)); [|intros x Hx; by apply elem_of_nil in Hx].
    by apply wp_new_entities.
  - destruct (e !! j) as [[id| | | |]|]; try apply HS. apply still_catch.
    + apply (still_wp w0 t True [] [] _ (fun _ _ => True)); [|intros x Hx; by apply elem_of_nil in Hx]. apply wp_handle_attach; [apply any_change|done].
    + intros o m. destruct o; [apply IH|right; apply IH..].
  - destruct (e !! j) as [[id| | | |]|]; try apply HS. apply still_catch; [|intros; apply IH].
    apply (still_wp w0 t True [] [] _ (fun _ _ => True)); [|intros x Hx; by apply elem_of_nil in Hx]. apply wp_handle_detach; [apply any_change|done].
  - destruct (e !! j) as [[|lo hi| | |]|]; try apply HS. apply still_catch.
    + apply (still_wp w0 t True [] [] _ (fun _ _ => True)); [|intros x Hx; by apply elem_of_nil in Hx]. by apply wp_batch.
    + intros o m. destruct o; [apply IH|right; apply IH..].
  - intros w Hw. split; [done|]. cbn [fst]. destruct (has_registered u w); [right; apply IH|apply IH].
  - intros w Hw. split; [done|]. cbn [fst]. destruct (has_registered u w); [|apply IH]. right. intros w' Hw'. split; [done|].
    cbn [fst]. destruct (storage_has w' id u); [apply IH|right; apply IH].
  - intros w Hw. split; [done|]. cbn [fst]. destruct (has_res r w); [right; apply IH|apply IH].
  - destruct (e !! j) as [ob|]; [|apply HS]. destruct (through ob o) eqn:Et; [|apply HS].
    apply through_guard in Et as [Hg Ht]. apply still_catch; [|intros; apply IH]. intros w Hw. split; [|by destruct ((step o w).1)].
    apply rewritten_layout.
    destruct Ht as [(u & x & Hx & Hr & _)|[(u & Hx & Hr & _)|[(r & x & Hx & ->)|(r & v & Hx & ->)]]].
    + destruct (piece_read_op w0 (obj_holds ob) o u x Hr Hx) as [_ Hm]. specialize (Hm w Hw). unfold moves, effect in Hm. rewrite Hm. apply rewritten_refl.
    + destruct (piece_write_op w0 (obj_holds ob) o u Hr Hx) as [_ Hm]. exact (proj1 (Hm w Hw)).
    + destruct (piece_read_res w0 (obj_holds ob) r x Hx) as [_ Hm]. specialize (Hm w Hw). unfold moves, effect in Hm. rewrite Hm. apply rewritten_refl.
    + destruct (piece_write_res w0 (obj_holds ob) r v Hx) as [_ Hm]. exact (proj1 (Hm w Hw)).
  - apply still_catch.
    + apply (still_wp w0 t True [] [] _ (fun _ _ => True)); [|intros x Hx; by apply elem_of_nil in Hx]. apply wp_open; [apply any_q|done|done].
    + intros o m. destruct o; try done; apply IH.
  - destruct (e !! j) as [[| | | |J st hs]|]; try apply HS. intros w Hw. split.
    + destruct (icall_same J st hs w) as (H1 & H2 & H3 & H4). change (layout t w (icall_act J st hs cc w).2). destruct cc as [| |id| |g]; rewrite ?H1, ?H2, ?H3, ?H4; try done.
      unfold icall_act. cbn [own_writes run_call]. apply rewritten_layout, rewritten_values.
    + destruct (run_call J (own_writes hs cc) (w, st)) as [o [w' st']]. cbn [fst snd]. destruct o; [apply IH|apply IH|done|done].
  - destruct (e !! j) as [ob|]; [|apply HS]. apply still_rels, IH.
Qed.

(** ** C41 *)

(** Thread [i] is between two calls: it keeps the objects [e] (guards, handles,
    iterators) and goes on with [cl]. *)
Definition between c i e cl : Prop := cf_threads c !! i = Some (Th (all_holds e) (compile e cl)).

(** While a thread has a guard on the storage of [t] that it had between two
    calls (so it belongs to a kept iterator or storage guard), whatever it and
    the others do: the entities stay at their positions.  Every reference that
    was valid stays valid. *)
Lemma drop_gone (l : lock) h : (forall rest, ~ h ≡ₚ (l, true) :: (l, true) :: rest) -> (l, true) ∉ drop_hold l true h.
Proof.
  intros Hn Hin. destruct (decide ((l, true) ∈ h)) as [Hh|Hh]; [|apply Hh; by eapply drop_hold_subset].
  apply elem_of_Permutation in Hin as [m Hm]. apply (Hn m). by rewrite <- Hm, drop_hold_perm.
Qed.
Lemma still_run w cs c i t sched c' : reaches w cs c -> run sched c = Some c' ->
  (exists th, cf_threads c !! i = Some th /\ still w t (th_prog th)) ->
  throughout (fun cm => guard_of cm i (LStore t, true)) sched c -> layout t (cf_world c) (cf_world c').
Proof.
  revert c. induction sched as [|j sched IH]; intros c HR Hr (th & Hi & Hs) HT; simpl in Hr; [injection Hr as <-; apply layout_refl|].
  destruct (cstep j c) as [c1|] eqn:Ec; [|done]. pose proof (throughout_hd _ _ _ HT) as Hg.
  assert (throughout (fun cm => guard_of cm i (LStore t, true)) sched c1) as HT1 by (by eapply throughout_tl).
  pose proof (throughout_hd _ _ _ HT1) as Hg1.
  assert (reaches w cs c1) as HR1 by (by eapply reaches_step).
  assert (layout t (cf_world c) (cf_world c1) /\ exists th', cf_threads c1 !! i = Some th' /\ still w t (th_prog th')) as [HL Hs1].
  2: { unfold layout in *. etrans; [exact HL|]. by apply (IH c1). }
  destruct (decide (j = i)) as [->|Hij].
  2: { split; [apply part_layout; eapply (C36_protected w cs c i j); [done|exact Hg|by apply not_eq_sym|done]|].
       exists th. split; [|done]. rewrite (step_other j i c c1 Hij Ec). done. }
  destruct Hg as (th0 & Hi0 & Hg). rewrite Hi in Hi0. injection Hi0 as <-.
  pose proof Ec as Ec'. unfold cstep in Ec. rewrite Hi in Ec. unfold tstep in Ec. destruct th as [hs p]. cbn [th_prog th_holds] in *.
  assert (forall th1 w1, c1 = Cf w1 (<[i := th1]> (cf_threads c)) -> cf_threads c1 !! i = Some th1) as Hl.
  { intros th1 w1 ->. simpl. apply list_lookup_insert. by eapply lookup_lt_Some. }
  destruct p as [a| | | |l x k|l x k|B lab f k]; try done.
  - destruct (conflict _ l x) eqn:Ecf; [done|]. injection Ec as <-. split; [done|]. eexists. split; [by eapply Hl|]. cbn [th_prog].
    destruct Hs as [->|Hs]; [|done]. exfalso. apply not_true_iff_false in Ecf. apply Ecf, conflict_true. exists true. split; [|done].
    apply elem_of_app. by left.
  - injection Ec as <-. split; [done|]. eexists. split; [by eapply Hl|]. cbn [th_prog].
    destruct Hs as [->|Hs]; [|done]. exfalso. destruct Hg1 as (th1 & Hi1 & Hg1). rewrite (Hl _ _ eq_refl) in Hi1. injection Hi1 as <-. cbn [th_holds] in Hg1.
    pose proof (reach_any _ _ _ HR) as HI. pose proof (ci_thr _ _ _ c HI i _ Hi) as [Hx _]. cbn [th_holds th_prog] in Hx.
    assert (forall y rest, ~ hs ≡ₚ (LStore t, true) :: (LStore t, y) :: rest) as Hn.
    { intros y rest HP. by destruct (C36_same_thread w cs c i (Th hs (PRel (LStore t) x k)) _ _ _ _ HR Hi HP). }
    destruct x; [revert Hg1; apply drop_gone; intros rest; apply Hn|].
    apply elem_of_Permutation in Hg as [m Hm]. rewrite Hm in Hx. apply elem_of_cons in Hx as [[=]|Hx]. apply elem_of_Permutation in Hx as [m' Hm'].
    apply (Hn false m'). by rewrite Hm, Hm'.
  - pose proof (C36_shape w cs c HR) as Hsh. destruct (Hs _ Hsh) as [H1 H2]. destruct (f (cf_world c)) as [[b| | |] w1]; cbn [fst snd] in *;
      injection Ec as <-; (split; [exact H1|]); eexists; (split; [by eapply Hl|cbn [th_prog]; first [exact H2|exact I]]).
Qed.
Theorem C41_while_guarded_partial w cs c i e cl t x sched c' :
  reaches w cs c -> between c i e cl -> run sched c = Some c' ->
  throughout (fun cm => guard_of cm i (LStore t, x)) sched c ->
  forall p id, belongs (cf_world c) t p id <-> belongs (cf_world c') t p id.
Proof.
  intros HR HB Hr HT p id.
  assert (layout t (cf_world c) (cf_world c')) as HL.
  2: { split; apply layout_belongs; unfold layout in *; done. }
  destruct x.
  - apply (still_run w cs c i t sched c' HR Hr); [|exact HT]. eexists. split; [exact HB|]. apply still_compile.
  - apply part_layout. apply (C36_shared w cs c (LStore t) sched c' HR Hr). intros pre post cm E1 E2. exists i. by apply (HT pre post cm).
Qed.
Lemma ends_bind {A B} w h (p : prog V A) (k : A -> prog V B) b : ends w h (pbind p k) (Ret b) ->
  exists a h', ends w h p (Ret a) /\ ends w h' (k a) (Ret b).
Proof.
  revert h. induction p as [a| | | |l x p IH|l x p IH|C lab f kk IH]; intros h; simpl; try done.
  - intros H. by exists a, h.
  - intros [Hc (a & h' & H1 & H2)%IH]. by exists a, h'.
  - intros (a & h' & H1 & H2)%IH. by exists a, h'.
  - intros (w1 & Hs & H). destruct ((f w1).1) as [x| | |] eqn:E; try done. apply IH in H as (a & h' & H1 & H2).
    exists a, h'. split; [|done]. exists w1. split; [done|]. by rewrite E.
Qed.
(** A kept iterator has a guard on every storage its items refer to: opening
    a query returns the iterator with these guards, whatever the other threads
    do meanwhile. *)
Theorem C41_iterator_guards w h q (J : qiter V) hs : ends w h (p_open q) (Ret (J, hs)) -> forall t m, (t, m) ∈ q_refs q -> (LStore t, m) ∈ hs.
Proof.
  revert h J hs. induction q as [m t|a IHa b IHb|a IHa b IHb c IHc|a IHa b IHb c IHc d IHd|a IHa b IHb c IHc d IHd e IHe|a IHa b IHb|a IHa b IHb|k ma mb a b];
    intros h J hs; cbn [p_open q_refs]; intros H t' m' Ht.
  - unfold p_ref in H. repeat (apply ends_bind in H as (? & ? & ? & H)). simpl in H. injection H as -> ->. by apply elem_of_list_singleton in Ht as [= -> ->]; left.
  - apply ends_bind in H as ([? ?] & ? & Ha & H). apply ends_bind in H as ([? ?] & ? & Hb & H). simpl in H. injection H as -> ->.
    rewrite elem_of_app in Ht. rewrite elem_of_app. destruct Ht as [Ht|Ht]; [right; by eapply IHa|left; by eapply IHb].
  - apply ends_bind in H as ([? ?] & ? & Ha & H). apply ends_bind in H as ([? ?] & ? & Hb & H). apply ends_bind in H as ([? ?] & ? & Hc & H).
    simpl in H. injection H as -> ->. rewrite !elem_of_app in Ht. rewrite !elem_of_app. destruct Ht as [Ht|[Ht|Ht]]; [right; right; by eapply IHa|right; left; by eapply IHb|left; by eapply IHc].
  - apply ends_bind in H as ([? ?] & ? & Ha & H). apply ends_bind in H as ([? ?] & ? & Hb & H). apply ends_bind in H as ([? ?] & ? & Hc & H).
    apply ends_bind in H as ([? ?] & ? & Hd & H). simpl in H. injection H as -> ->. rewrite !elem_of_app in Ht. rewrite !elem_of_app. destruct Ht as [Ht|[Ht|[Ht|Ht]]]; [right; right; right; by eapply IHa|right; right; left; by eapply IHb|right; left; by eapply IHc|left; by eapply IHd].
  - apply ends_bind in H as ([? ?] & ? & Ha & H). apply ends_bind in H as ([? ?] & ? & Hb & H). apply ends_bind in H as ([? ?] & ? & Hc & H).
    apply ends_bind in H as ([? ?] & ? & Hd & H). apply ends_bind in H as ([? ?] & ? & He & H).
    simpl in H. injection H as -> ->. rewrite !elem_of_app in Ht. rewrite !elem_of_app. destruct Ht as [Ht|[Ht|[Ht|[Ht|Ht]]]]; [right; right; right; right; by eapply IHa|right; right; right; left; by eapply IHb|right; right; left; by eapply IHc|right; left; by eapply IHd|left; by eapply IHe].
  - apply ends_bind in H as ([? ?] & ? & Ha & H). apply ends_bind in H as ([? ?] & ? & Hb & H). simpl in H. injection H as -> ->.
    rewrite elem_of_app in Ht. rewrite elem_of_app. destruct Ht as [Ht|Ht]; [right; by eapply IHa|left; by eapply IHb].
  - apply ends_bind in H as ([? ?] & ? & Ha & H). apply ends_bind in H as ([? ?] & ? & Hb & H). simpl in H. injection H as -> ->.
    rewrite elem_of_app in Ht. rewrite elem_of_app. destruct Ht as [Ht|Ht]; [right; by eapply IHa|left; by eapply IHb].
  - assert (exists gi, hs = [(LGroup gi, false); (LStore b, mb); (LStore a, ma)]) as [gi ->].
    { unfold p_open_group in H. repeat (apply ends_bind in H as (? & ? & _ & H)).
      destruct k; repeat (apply ends_bind in H as (? & ? & _ & H)); simpl in H; injection H as -> ->; eauto. }
    apply elem_of_cons in Ht as [[= -> ->]|Ht]; [right; right; left|]. apply elem_of_list_singleton in Ht as [= -> ->]. right; left.
Qed.
End items.

(** ** The items outlive the guard *)

(** C41 is false of the code.  All witnesses are one thread that takes items
    from a query, lets the iterator go, and makes a call that needs only
    [&World].  (1) The component the item refers to is gone: the reference
    dangles, although its entity still has the component. *)
Definition three : list (op nat) := [Register 1; CreateEntity; CreateEntity; Attach 1 1 10; Attach 1 2 20].
Theorem C41_dangling_refuted : exists (ops : list (op nat)) o q its id it t p,
  rules (ops ++ [o]) /\ query_items (after ops) q = Ret its /\ (id, it) ∈ its /\ (true, t, p) ∈ item_refs it /\
  belongs (after ops) t p id /\ (forall id', ~ belongs (after (ops ++ [o])) t p id') /\ deref (after (ops ++ [o])) it = None /\
  answer (ops ++ [o]) (ReadComp t id) = Ret (OVal (Some 20)).
Proof.
  exists three, (Detach 1 1), (QRef true 1), [(1, IRef true 1 0); (2, IRef true 1 1)], 2, (IRef true 1 1), 1, 1.
  split; [unfold three; check_rules|]. split; [vm_compute; reflexivity|]. split; [by right; left|]. split; [by left|].
  split; [eexists; split; vm_compute; reflexivity|]. split; [|split; vm_compute; reflexivity].
  intros id' (st & E & Hp). vm_compute in E. injection E as <-. by vm_compute in Hp.
Qed.
(** (2) The item of one entity comes to refer to the component of another. *)
Theorem C41_other_entity_refuted : exists (ops : list (op nat)) o q its id it t p id',
  rules (ops ++ [o]) /\ query_items (after ops) q = Ret its /\ (id, it) ∈ its /\ (true, t, p) ∈ item_refs it /\
  belongs (after ops) t p id /\ belongs (after (ops ++ [o])) t p id' /\ id <> id'.
Proof.
  exists three, (Detach 1 1), (QRef true 1), [(1, IRef true 1 0); (2, IRef true 1 1)], 1, (IRef true 1 0), 1, 0, 2.
  split; [unfold three; check_rules|]. split; [vm_compute; reflexivity|]. split; [by left|]. split; [by left|].
  split; [eexists; split; vm_compute; reflexivity|]. split; [eexists; split; vm_compute; reflexivity|done].
Qed.
(** (3) Two mutable references to one component, from one iterator: [next] and
    then [from_id] with the same entity. *)
Theorem C41_from_id_alias_refuted : exists (ops : list (op nat)) q J h it st it' st' t p id, rules ops /\
  query_open (after ops) q [] = (Ret J, h) /\ qi_next_id J (after ops) (qi_init J) = (Ret (Some (id, it)), st) /\
  qi_from_id J (after ops) id st = (Ret (Some it'), st') /\ (true, t, p) ∈ item_refs it /\ (true, t, p) ∈ item_refs it'.
Proof.
  exists three, (QRef true 1), (iter_ref true 1), [(1, true)], (IRef true 1 0), 1, (IRef true 1 0), 1, 1, 0, 1.
  split; [unfold three; check_rules|]. do 3 (split; [vm_compute; reflexivity|]). split; left.
Qed.

(** ** A case *)

(** A thread that has opened the query [&mut 1] and keeps the iterator, beside
    one that wants to detach: the hypotheses of [C41_while_guarded_partial]
    are met. *)
Definition keeper : client nat := Open (QRef true 1) (fun _ => Done).
Definition detacher : client nat := Call (Detach 1 1) (fun _ => Done).
Definition mid : conf nat := at_end [0; 0; 0] (start (after three) [keeper; detacher]).
Example C41_case : reaches (after three) [keeper; detacher] mid /\
  between mid 0 [JIter (iter_ref true 1) 0 [(LStore 1, true)]] Done /\
  run [1; 1; 1; 1] mid = Some (at_end [1; 1; 1; 1] mid) /\
  throughout (fun cm => guard_of cm 0 (LStore 1, true)) [1; 1; 1; 1] mid /\ belongs (cf_world mid) 1 1 2.
Proof.
  split; [apply at_end_reaches; vm_compute; reflexivity|]. split; [vm_compute; reflexivity|].
  split; [apply at_end_run; vm_compute; reflexivity|]. split; [apply kept_ok; vm_compute; reflexivity|].
  eexists. split; vm_compute; reflexivity.
Qed.

(** Iterators that stay within their storages, those of owning groups
    included: what they need to know of the world ([K]), and what keeps it. *)
From stdpp Require Import prelude list gmap.
From Verif Require Import Base Api ModelSparse ModelEntity ModelGroup ModelWorld ModelQuery ModelStep ModelConc SpecConc
  Spec History ProofSparse ProofGroup ProofWorld ProofWf ProofConc ProofConc2 ProofConc3 ProofConc4 ProofConc5.

Section safe.
Context {V : Type}.
Implicit Types (w : world V) (h hs : list (lock * bool)) (K : world V -> Prop).

(** the same entities in the same places, in the storages locked by [hs] *)
Definition places w t : option (list nat) := (fun st => entities (st_set st)) <$> w_comps w !! t.
Definition near hs w w' : Prop := forall t x, (LStore t, x) ∈ hs -> places w t = places w' t.
Lemma near_refl hs w : near hs w w.
Proof. by intros t x _. Qed.
Lemma near_trans hs w1 w2 w3 : near hs w1 w2 -> near hs w2 w3 -> near hs w1 w3.
Proof. intros A B t x Hx. etrans; [by eapply A|by eapply B]. Qed.
Lemma near_sub hs hs' w w' : (forall y, y ∈ hs -> y ∈ hs') -> near hs' w w' -> near hs w w'.
Proof. intros Hs H t x Hx. eapply H. by apply Hs. Qed.
Lemma near_agree hs w w' : agree hs w w' -> near hs w w'.
Proof. intros [_ H] t x Hx. specialize (H _ _ Hx). simpl in H. unfold places. by rewrite H. Qed.
Lemma near_all hs w w' : (forall t, places w t = places w' t) -> near hs w w'.
Proof. intros H t x _. apply H. Qed.
Lemma rewritten_places w w' : rewritten w w' -> forall t, places w t = places w' t.
Proof.
  intros (_ & _ & H & _) t. specialize (H t). unfold places. destruct (w_comps w !! t), (w_comps w' !! t); simpl in *; congruence.
Qed.
Lemma near_rewritten hs w w' : rewritten w w' -> near hs w w'.
Proof. intros H. apply near_all. by apply rewritten_places. Qed.

(** As [qsafe] (ProofWf.v), with more to rely on. *)
Record qsafek K (J : qiter V) : Prop := {
  qk_next : forall w st, good w -> K w -> fine (item_in w) (qi_next J w st).1;
  qk_next_id : forall w st, good w -> K w -> fine (fun x => item_in w x.2) (qi_next_id J w st).1;
  qk_from : forall w id st, good w -> K w -> fine (item_in w) (qi_from_id J w id st).1;
  qk_hint : forall w st, good w -> qi_hint J w st <> UB
}.
Lemma qsafe_k T J : qsafe T J -> qsafek (fun w => Forall (fun t => is_Some (w_comps w !! t)) T) J.
Proof. intros [A B C D]. by split. Qed.

Definition within (t : tid) (len : nat) w : Prop := exists es, places w t = Some es /\ len <= length es.
Lemma within_st t len w : within t len w -> exists st, w_comps w !! t = Some st /\ len <= length (entities (st_set st)).
Proof. intros (es & H & Hl). unfold places in H. destruct (w_comps w !! t) as [st|] eqn:E; [|done]. injection H as <-. eauto. Qed.
Definition both_in a b len w : Prop := within a len w /\ within b len w.
Lemma get_in w t st id k : good w -> w_comps w !! t = Some st -> ss_get_index (st_set st) id = Some k -> is_Some (deref_loc w t k).
Proof.
  intros G E Ek. destruct (gd_st w G t st E) as [_ W]. unfold deref_loc. rewrite E. apply (wf_pos _ W) in Ek. apply lookup_lt_Some in Ek.
  rewrite (wf_len _ W) in Ek. by apply lookup_lt_is_Some.
Qed.
Lemma idx_in w t st i : good w -> w_comps w !! t = Some st -> i < length (entities (st_set st)) ->
  (i <? length (sdata (st_set st))) = true /\ is_Some (deref_loc w t i).
Proof.
  intros G E Hi. destruct (gd_st w G t st E) as [_ W]. rewrite (wf_len _ W) in Hi. split; [by apply Nat.ltb_lt|].
  unfold deref_loc. rewrite E. by apply lookup_lt_is_Some.
Qed.
Lemma qsafek_full ma mb a b len : qsafek (both_in a b len) (iter_full ma mb a b len).
Proof.
  split.
  - intros w i G [(sa & Ea & La)%within_st (sb & Eb & Lb)%within_st]. cbn [iter_full qi_next qi_st]. unfold bind, get, ptr, ret.
    destruct (i <? len) eqn:Hi; [|done]. apply Nat.ltb_lt in Hi. rewrite Ea, Eb. unfold data_unchecked.
    destruct (idx_in w a sa i G Ea ltac:(lia)) as [-> Da]. destruct (idx_in w b sb i G Eb ltac:(lia)) as [-> Db]. by split.
  - intros w i G [(sa & Ea & La)%within_st (sb & Eb & Lb)%within_st]. cbn [iter_full qi_next_id qi_st]. unfold bind, get, ptr, ret.
    destruct (i <? len) eqn:Hi; [|done]. apply Nat.ltb_lt in Hi. rewrite Ea, Eb. unfold data_unchecked, ent_unchecked.
    destruct (lookup_lt_is_Some_2 (entities (st_set sa)) i) as [e ->]; [lia|].
    destruct (idx_in w a sa i G Ea ltac:(lia)) as [-> Da]. destruct (idx_in w b sb i G Eb ltac:(lia)) as [-> Db]. by split.
  - intros w id i G [(sa & Ea & La)%within_st (sb & Eb & Lb)%within_st]. cbn [iter_full qi_from_id qi_st]. unfold bind, ptr, ret, lift. rewrite Ea, Eb.
    rewrite (get_loc_wf id _ (proj2 (gd_st w G a sa Ea))), (get_loc_wf id _ (proj2 (gd_st w G b sb Eb))).
    destruct (ss_get_index (st_set sa) id) as [ka|] eqn:Ka; [|done]. destruct (ss_get_index (st_set sb) id) as [kb|] eqn:Kb; [|done].
    split; simpl; by eapply get_in.
  - intros w i G. simpl. unfold sub_hint. by destruct (_ <? _).
Qed.
Lemma qsafek_part ma mb a b len : qsafek (fun w => within a len w /\ within b 0 w) (iter_part ma mb a b len).
Proof.
  split.
  - intros w i G [(sa & Ea & La)%within_st (sb & Eb & _)%within_st]. cbn [iter_part qi_next qi_st]. unfold bind, get, ptr, ret.
    destruct (i <? len) eqn:Hi; [|done]. apply Nat.ltb_lt in Hi. rewrite Ea, Eb. unfold data_unchecked, ent_unchecked.
    destruct (lookup_lt_is_Some_2 (entities (st_set sa)) i) as [e ->]; [lia|].
    destruct (idx_in w a sa i G Ea ltac:(lia)) as [-> Da]. unfold ret, lift; cbn beta iota. rewrite (get_loc_wf e _ (proj2 (gd_st w G b sb Eb))).
    destruct (ss_get_index (st_set sb) e) as [kb|] eqn:Kb; [|done]. simpl. split; [done|]. by eapply get_in.
  - intros w i G [(sa & Ea & La)%within_st (sb & Eb & _)%within_st]. cbn [iter_part qi_next_id qi_st]. unfold bind, get, ptr, ret.
    destruct (i <? len) eqn:Hi; [|done]. apply Nat.ltb_lt in Hi. rewrite Ea, Eb. unfold data_unchecked, ent_unchecked.
    destruct (lookup_lt_is_Some_2 (entities (st_set sa)) i) as [e ->]; [lia|].
    destruct (idx_in w a sa i G Ea ltac:(lia)) as [-> Da]. unfold ret, lift; cbn beta iota. rewrite (get_loc_wf e _ (proj2 (gd_st w G b sb Eb))).
    destruct (ss_get_index (st_set sb) e) as [kb|] eqn:Kb; [|done]. simpl. split; [done|]. by eapply get_in.
  - intros w id i G [(sa & Ea & La)%within_st (sb & Eb & _)%within_st]. cbn [iter_part qi_from_id qi_st]. unfold bind, ptr, ret, lift. rewrite Ea, Eb.
    rewrite (get_loc_wf id _ (proj2 (gd_st w G a sa Ea))), (get_loc_wf id _ (proj2 (gd_st w G b sb Eb))).
    destruct (ss_get_index (st_set sa) id) as [ka|] eqn:Ka; [|done]. destruct (ss_get_index (st_set sb) id) as [kb|] eqn:Kb; [|done].
    split; simpl; by eapply get_in.
  - intros w i G. simpl. unfold sub_hint. by destruct (_ <? _).
Qed.

Ltac mf := repeat first
  [ progress intros
  | match goal with
    | |- mfine _ (ret None) => apply mfine_ret_none
    | |- mfine _ (ret (Some _)) => apply mfine_ret_some; simpl in *; tauto
    | |- mfine _ (on_fst _) => apply mfine_fst
    | |- mfine _ (on_snd _) => apply mfine_snd
    | |- mfine _ (bind get _) => apply mfine_get
    | H : qsafek _ ?J |- mfine _ (qi_next_id ?J ?w) => intros ?; apply (qk_next_id _ _ H); assumption
    | H : qsafek _ ?J |- mfine _ (qi_from_id ?J ?w ?id) => intros ?; apply (qk_from _ _ H); assumption
    | x : _ * item |- _ => destruct x
    | |- mfine _ (bind (on_fst (qi_from_id _ ?w _)) _) => apply (mfine_bind (item_in w))
    | |- mfine _ (bind (on_snd (qi_from_id _ ?w _)) _) => apply (mfine_bind (item_in w))
    | |- mfine _ (bind (on_snd (on_fst (qi_from_id _ ?w _))) _) => apply (mfine_bind (item_in w))
    | |- mfine _ (bind (on_snd (on_snd (qi_from_id _ ?w _))) _) => apply (mfine_bind (item_in w))
    | |- mfine _ (bind (on_snd (on_snd (on_fst (qi_from_id _ ?w _)))) _) => apply (mfine_bind (item_in w))
    | |- mfine _ (bind (on_snd (on_snd (on_snd (qi_from_id _ ?w _)))) _) => apply (mfine_bind (item_in w))
    | |- mfine _ (bind (on_snd (on_snd (on_snd (on_fst (qi_from_id _ ?w _))))) _) => apply (mfine_bind (item_in w))
    | |- mfine _ (bind (on_snd (on_snd (on_snd (on_snd (qi_from_id _ ?w _))))) _) => apply (mfine_bind (item_in w))
    | |- mfine _ (while_some _ (_ (qi_next_id _ ?w)) _) => apply (mfine_while (fun x : nat * item => item_in w x.2))
    end ].
Ltac qs_tac := split; [intros w st G HT; decompose [and] HT; revert st; cbn [qi_next with2 with3 with4 with5 without_left without_right];
   match goal with |- forall st, fine ?P (?m st).1 => change (mfine P m) end; mf
  |intros w st G HT; decompose [and] HT; revert st; cbn [qi_next_id with2 with3 with4 with5 without_left without_right];
   match goal with |- forall st, fine ?P (?m st).1 => change (mfine P m) end; mf
  |intros w id st G HT; decompose [and] HT; revert st; cbn [qi_from_id with2 with3 with4 with5 without_left without_right];
   match goal with |- forall st, fine ?P (?m st).1 => change (mfine P m) end; mf
  |done].
Section combine.
Variables (T U X Y Z : world V -> Prop) (A B C D E : qiter V).
Lemma qsafek_with2 : qsafek T A -> qsafek U B -> qsafek (fun w => T w /\ U w) (with2 A B).
Proof. intros HA HB. qs_tac. Qed.
Lemma qsafek_with3 : qsafek T A -> qsafek U B -> qsafek X C -> qsafek (fun w => T w /\ U w /\ X w) (with3 A B C).
Proof. intros HA HB HC. qs_tac. Qed.
Lemma qsafek_with4 : qsafek T A -> qsafek U B -> qsafek X C -> qsafek Y D -> qsafek (fun w => T w /\ U w /\ X w /\ Y w) (with4 A B C D).
Proof. intros HA HB HC HD. qs_tac. Qed.
Lemma qsafek_with5 : qsafek T A -> qsafek U B -> qsafek X C -> qsafek Y D -> qsafek Z E ->
  qsafek (fun w => T w /\ U w /\ X w /\ Y w /\ Z w) (with5 A B C D E).
Proof. intros HA HB HC HD HE. qs_tac. Qed.
Lemma qsafek_left : qsafek T A -> qsafek U B -> qsafek (fun w => T w /\ U w) (without_left A B).
Proof. intros HA HB. qs_tac. Qed.
Lemma qsafek_right : qsafek T A -> qsafek U B -> qsafek (fun w => T w /\ U w) (without_right A B).
Proof. intros HA HB. qs_tac. Qed.
End combine.

(** An iterator with the guards [hs] is safe in [u], and stays so as long as
    the entities in the storages it locks stay in place. *)
Definition holdfast hs K : Prop := forall w w', near hs w w' -> K w -> K w'.
Definition iterk hs (u : world V) (J : qiter V) : Prop := exists K, qsafek K J /\ K u /\ holdfast hs K.
Lemma holdfast_sub hs hs' K : (forall y, y ∈ hs -> y ∈ hs') -> holdfast hs K -> holdfast hs' K.
Proof. intros Hs H w w' Hn. apply H. by eapply near_sub. Qed.
Lemma holdfast_and hs K K' : holdfast hs K -> holdfast hs K' -> holdfast hs (fun w => K w /\ K' w).
Proof. intros A B w w' Hn [? ?]. split; [by eapply A|by eapply B]. Qed.
Lemma holdfast_within hs t x len : (LStore t, x) ∈ hs -> holdfast hs (within t len).
Proof. intros Hx w w' Hn (es & E & Hl). exists es. by rewrite <- (Hn _ _ Hx). Qed.
Lemma holdfast_reg hs t x : (LStore t, x) ∈ hs -> holdfast hs (fun w => Forall (fun t => is_Some (w_comps w !! t)) [t]).
Proof.
  intros Hx w w' Hn H. inversion H as [|? ? Ht _]; subst. constructor; [|done]. specialize (Hn _ _ Hx). unfold places in Hn.
  destruct (w_comps w !! t); [|by destruct Ht]. destruct (w_comps w' !! t); [eauto|done].
Qed.
Lemma iterk_near hs u u' J : near hs u u' -> iterk hs u J -> iterk hs u' J.
Proof. intros Hn (K & A & B & C). exists K. split; [done|]. split; [by eapply C|done]. Qed.
Lemma iterk_ref u m t : has_registered t u = true -> iterk [(LStore t, m)] u (iter_ref m t).
Proof.
  intros H. eexists. split; [apply qsafe_k, qsafe_ref|]. split; [|eapply holdfast_reg; left]. constructor; [by apply bool_decide_eq_true in H|done].
Qed.
Lemma iterk_2 (F : qiter V -> qiter V -> qiter V) hs hs' u A B :
  (forall T U, qsafek T A -> qsafek U B -> qsafek (fun w => T w /\ U w) (F A B)) -> iterk hs u A -> iterk hs' u B -> iterk (hs' ++ hs) u (F A B).
Proof.
  intros HF (T & A1 & A2 & A3) (U & B1 & B2 & B3). exists (fun w => T w /\ U w). split; [auto|]. split; [done|].
  apply holdfast_and; eapply holdfast_sub; try eassumption; intros y; rewrite elem_of_app; tauto.
Qed.
Lemma iterk_3 ha hb hc u A B C : iterk ha u A -> iterk hb u B -> iterk hc u C -> iterk (hc ++ hb ++ ha) u (with3 A B C).
Proof.
  intros (T & A1 & A2 & A3) (U & B1 & B2 & B3) (X & C1 & C2 & C3). eexists. split; [by apply qsafek_with3|]. split; [done|].
  repeat apply holdfast_and; eapply holdfast_sub; try eassumption; intros y; rewrite !elem_of_app; tauto.
Qed.
Lemma iterk_4 ha hb hc hd u A B C D : iterk ha u A -> iterk hb u B -> iterk hc u C -> iterk hd u D -> iterk (hd ++ hc ++ hb ++ ha) u (with4 A B C D).
Proof.
  intros (T & A1 & A2 & A3) (U & B1 & B2 & B3) (X & C1 & C2 & C3) (Y & D1 & D2 & D3). eexists. split; [by apply qsafek_with4|]. split; [done|].
  repeat apply holdfast_and; eapply holdfast_sub; try eassumption; intros y; rewrite !elem_of_app; tauto.
Qed.
Lemma iterk_5 ha hb hc hd he u A B C D E : iterk ha u A -> iterk hb u B -> iterk hc u C -> iterk hd u D -> iterk he u E ->
  iterk (he ++ hd ++ hc ++ hb ++ ha) u (with5 A B C D E).
Proof.
  intros (T & A1 & A2 & A3) (U & B1 & B2 & B3) (X & C1 & C2 & C3) (Y & D1 & D2 & D3) (Z & E1 & E2 & E3). eexists. split; [by apply qsafek_with5|]. split; [done|].
  repeat apply holdfast_and; eapply holdfast_sub; try eassumption; intros y; rewrite !elem_of_app; tauto.
Qed.

(** running such iterators *)
Lemma collectk_noub fuel w J K st : good w -> K w -> qsafek K J -> collect fuel w J st <> UB.
Proof.
  intros G HT HJ. revert st. induction fuel as [|fuel IH]; intros st; [done|]. cbn [collect].
  pose proof (qk_next_id K J HJ w st G HT) as Hn. destruct (qi_next_id J w st) as [[[[id it]|]| | |] st']; simpl in Hn; try done.
  destruct (deref_in w it Hn) as [v ->]. specialize (IH st'). by destruct (collect fuel w J st').
Qed.
Lemma drivek_noub hs fuel J f st K w : good w -> K w -> qsafek K J -> holdfast hs K -> (drive fuel J f st w).1 <> UB.
Proof.
  intros G HT HJ HF. revert st w G HT. induction fuel as [|fuel IH]; intros st w G HT; [done|]. cbn [drive].
  pose proof (qk_next_id K J HJ w st G HT) as Hn. destruct (qi_next_id J w st) as [[[[id it]|]| | |] st']; simpl in Hn; try done.
  destruct (deref_in w it Hn) as [v ->]. destruct (good_poke_item f id it w G) as [G1 S1].
  assert (K (poke_item f id it w)) as K1. { eapply HF; [|done]. by apply near_rewritten, rewritten_poke_item. }
  pose proof (IH st' _ G1 K1) as N2. by destruct (drive fuel J f st' (poke_item f id it w)) as [[l| | |] w'].
Qed.
Lemma icallk_noub J st hs c w K : good w -> K w -> qsafek K J -> forall o st', (icall_act J st hs c w).1 = Ret (o, st') -> o <> UB.
Proof.
  intros G HT HJ. unfold icall_act. destruct c as [| |id| |g]; cbn [own_writes run_call].
  - pose proof (qk_next K J HJ w st G HT) as Hn. destruct (qi_next J w st) as [[[it|]| | |] st']; simpl in *; try (by intros ? ? [= <- <-]).
    destruct (deref_in w it Hn) as [v ->]. simpl. by intros ? ? [= <- <-].
  - pose proof (qk_next_id K J HJ w st G HT) as Hn. destruct (qi_next_id J w st) as [[[[id it]|]| | |] st']; simpl in *; try (by intros ? ? [= <- <-]).
    destruct (deref_in w it Hn) as [v ->]. simpl. by intros ? ? [= <- <-].
  - pose proof (qk_from K J HJ w id st G HT) as Hn. destruct (qi_from_id J w id st) as [[[it|]| | |] st']; simpl in *; try (by intros ? ? [= <- <-]).
    destruct (deref_in w it Hn) as [v ->]. simpl. by intros ? ? [= <- <-].
  - pose proof (qk_hint K J HJ w st G) as Hn. destruct (qi_hint J w st) as [n| | |]; simpl in *; by intros ? ? [= <- <-].
  - simpl. by intros ? ? [= <- <-].
Qed.
End safe.

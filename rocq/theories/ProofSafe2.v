(** Walking through programs, keeping track of the world: no undefined
    behaviour as long as the world keeps to [I]. *)
From stdpp Require Import prelude list gmap.
From Verif Require Import Base Api ModelSparse ModelEntity ModelGroup ModelWorld ModelQuery ModelStep ModelConc SpecConc
  Spec History SpecApart ProofSparse ProofGroup ProofWorld ProofWf ProofConc ProofConc2 ProofConc3 ProofConc4 ProofConc5 ProofConc6 ProofConc7 ProofConc8 ProofConc10 ProofSafe.

Section sf.
Context {V : Type}.
Implicit Types (w u : world V) (h hs mine : list (lock * bool)).
Variables (w0 : world V) (I : world V -> Prop).
Hypothesis (HI : forall w, I w -> same_shape w0 w /\ good w).
(** the members of owning groups are within the storages *)
Hypothesis (HF : forall w i a b g, I w -> group_head i w0 = Some (KFull, a, b) -> w_groups w !! i = Some g -> both_in a b (g_len g) w).
Hypothesis (HP : forall w i a b g, I w -> group_head i w0 = Some (KPart, a, b) -> w_groups w !! i = Some g -> within a (g_len g) w /\ within b 0 w).

(** [h0]: guards of the caller, [ub]: the world when it called; [mine]:
    guards taken by the program; [u]: the world when it last looked. *)
Fixpoint sf h0 ub mine u {A} (p : prog V A) (Q : A -> list (lock * bool) -> world V -> Prop) : Prop :=
  match p with
  | PRet a => exists m, m ≡ₚ mine /\ Q a m u
  | PPanic => near h0 ub u
  | PUB => False
  | PHang => True
  | PAcq l x k => conflict (mine ++ h0) l x = false -> forall u', agree (mine ++ h0) u u' -> I u' -> sf h0 ub ((l, x) :: mine) u' k Q
  | PRel l x k => (l, x) ∈ mine /\ sf h0 ub (drop_hold l x mine) u k Q
  | PAct lab f k => forall u', agree (mine ++ h0) u u' -> I u' -> I (f u').2 ->
      match (f u').1 with
      | Ret b => sf h0 ub mine (f u').2 (k b) Q
      | Panic => near h0 ub (f u').2
      | UB => False
      | Block => True
      end
  end.

Lemma agree_perm h h' u u' : h ≡ₚ h' -> agree h u u' -> agree h' u u'.
Proof. intros HP'. apply agree_sub. intros y. by rewrite HP'. Qed.
Lemma sf_perm h0 ub mine mine' u {A} (p : prog V A) Q : mine ≡ₚ mine' -> sf h0 ub mine u p Q -> sf h0 ub mine' u p Q.
Proof.
  revert mine mine' u. induction p as [a| | | |l x k IH|l x k IH|B lab f k IH]; intros mine mine' u Hm; simpl; try done.
  - intros (m & H1 & H2). exists m. split; [by etrans|done].
  - intros H Hc u' Ha Hi. eapply IH; [by apply perm_skip, Hm|]. apply H; [|eapply agree_perm; [|exact Ha]; by rewrite Hm|done].
    rewrite <- Hc. apply conflict_perm. by rewrite Hm.
  - intros [H1 H2]. split; [by rewrite <- Hm|]. eapply IH; [|exact H2]. by apply drop_hold_equiv.
  - intros H u' Ha Hi Hi'. specialize (H u'). destruct ((f u').1) eqn:E.
    + eapply IH; [exact Hm|]. apply H; [|done|done]. eapply agree_perm; [|exact Ha]. by rewrite Hm.
    + apply H; [|done|done]. eapply agree_perm; [|exact Ha]. by rewrite Hm.
    + apply H; [|done|done]. eapply agree_perm; [|exact Ha]. by rewrite Hm.
    + done.
Qed.
Lemma sf_mono h0 ub mine u {A} (p : prog V A) (Q Q' : A -> list (lock * bool) -> world V -> Prop) :
  (forall a m u', Q a m u' -> Q' a m u') -> sf h0 ub mine u p Q -> sf h0 ub mine u p Q'.
Proof.
  intros HQ. revert mine u. induction p as [a| | | |l x k IH|l x k IH|B lab f k IH]; intros mine u; simpl; try done.
  - intros (m & H1 & H2). exists m. auto.
  - intros H Hc u' Ha Hi. apply IH. by apply H.
  - intros [H1 H2]. auto.
  - intros H u' Ha Hi Hi'. specialize (H u' Ha Hi Hi'). destruct ((f u').1); auto.
Qed.
Lemma sf_bind h0 ub mine u {A B} (p : prog V A) (k : A -> prog V B) Q :
  sf h0 ub mine u p (fun a m u' => sf h0 ub m u' (k a) Q) -> sf h0 ub mine u (pbind p k) Q.
Proof.
  revert mine u. induction p as [a| | | |l x kk IH|l x kk IH|C lab f kk IH]; intros mine u; simpl; try done.
  - intros (m & Hm & H). eapply sf_perm; [|exact H]. done.
  - intros H Hc u' Ha Hi. apply IH. by apply H.
  - intros [H1 H2]. auto.
  - intros H u' Ha Hi Hi'. specialize (H u' Ha Hi Hi'). destruct ((f u').1); [|done..]. by apply IH.
Qed.
Lemma sf_ret h0 ub mine u {A} (a : A) (Q : A -> list (lock * bool) -> world V -> Prop) : Q a mine u -> sf h0 ub mine u (PRet a) Q.
Proof. intros H. by exists mine. Qed.
Lemma sf_rels h0 ub u {A} (p : prog V A) hs mine mine' Q : mine ≡ₚ hs ++ mine' -> sf h0 ub mine' u p Q -> sf h0 ub mine u (rels hs p) Q.
Proof.
  revert mine. induction hs as [|[l x] hs IH]; intros mine Hm H; simpl; [by eapply sf_perm|].
  split; [rewrite Hm; left|]. apply IH; [|done]. by apply drop_hold_cons.
Qed.
Lemma sf_acq h0 ub mine u l x (Q : unit -> list (lock * bool) -> world V -> Prop) :
  (forall u', agree (mine ++ h0) u u' -> I u' -> Q tt ((l, x) :: mine) u') -> sf h0 ub mine u (acq l x) Q.
Proof. intros H _ u' Ha Hi. apply sf_ret. auto. Qed.
Lemma sf_rel h0 ub mine m u l x (Q : unit -> list (lock * bool) -> world V -> Prop) : mine ≡ₚ (l, x) :: m -> Q tt m u -> sf h0 ub mine u (rel l x) Q.
Proof. intros Hm H. split; [rewrite Hm; left|]. exists m. split; [|done]. symmetry. by apply drop_hold_cons. Qed.
Lemma sf_ask h0 ub mine u {B} (f : world V -> outcome B) (Q : B -> list (lock * bool) -> world V -> Prop) :
  (forall u', agree (mine ++ h0) u u' -> I u' -> match f u' with Ret b => Q b mine u' | Panic => near h0 ub u' | UB => False | Block => True end) ->
  sf h0 ub mine u (ask f) Q.
Proof. intros H u' Ha Hi _. specialize (H u' Ha Hi). cbn [fst snd]. destruct (f u'); [by apply sf_ret|done..]. Qed.
Lemma sf_look h0 ub mine u {B} (f : world V -> B) (Q : B -> list (lock * bool) -> world V -> Prop) :
  (forall u', agree (mine ++ h0) u u' -> I u' -> Q (f u') mine u') -> sf h0 ub mine u (look f) Q.
Proof. intros H u' Ha Hi _. exists mine. split; [done|]. by apply H. Qed.
Lemma sf_passert h0 ub mine u b (Q : unit -> list (lock * bool) -> world V -> Prop) : near h0 ub u -> (b = true -> Q tt mine u) -> sf h0 ub mine u (passert b) Q.
Proof. intros Hn H. destruct b; [|done]. apply sf_ret. auto. Qed.
Lemma sf_punwrap h0 ub mine u {A} (o : option A) (Q : A -> list (lock * bool) -> world V -> Prop) : near h0 ub u -> (forall a, o = Some a -> Q a mine u) -> sf h0 ub mine u (punwrap o) Q.
Proof. intros Hn H. destruct o; [|done]. apply sf_ret. auto. Qed.

(** Catching panics. *)
Definition sft mine u (p : prog V unit) : Prop := sf [] u mine u p (fun _ _ _ => True).
Lemma sft_ub ub mine u {A} (p : prog V A) : sf [] ub mine u p (fun _ _ _ => True) -> forall ub', sf [] ub' mine u p (fun _ _ _ => True).
Proof.
  revert mine u. induction p as [a| | | |l x kk IH|l x kk IH|C lab f kk IH]; intros mine u; simpl; try done.
  - intros _ ub' t x Hx. by apply elem_of_nil in Hx.
  - intros H ub' Hc u' Ha Hi. eapply IH. by apply H.
  - intros [H1 H2] ub'. split; [done|]. by eapply IH.
  - intros H ub' u' Ha Hi Hi'. specialize (H u' Ha Hi Hi'). destruct ((f u').1); try done; [by eapply IH|]. intros t x Hx. by apply elem_of_nil in Hx.
Qed.
Lemma sf_catch h0 ub mine u {A} (p : prog V A) (k : outcome A -> list (lock * bool) -> prog V unit) (Q : A -> list (lock * bool) -> world V -> Prop) :
  sf h0 ub mine u p Q ->
  (forall a m m' u', Q a m u' -> m' ≡ₚ m -> sft (m' ++ h0) u' (k (Ret a) m')) ->
  (forall u', near h0 ub u' -> sft h0 u' (k Panic [])) ->
  sft (mine ++ h0) u (catch mine p k).
Proof.
  intros H HR HPn. revert mine u H.
  assert (forall mine u, near h0 ub u -> sft (mine ++ h0) u (rels mine (k Panic []))) as Hun.
  { intros mine u Hn. eapply sf_rels; [done|]. by apply HPn. }
  induction p as [a| | | |l x kk IH|l x kk IH|C lab f kk IH]; intros mine u; cbn [sf catch].
  - intros (m & Hm & HQ). by eapply HR.
  - apply Hun.
  - done.
  - done.
  - intros H. unfold sft. cbn [sf]. rewrite app_nil_r. intros Hc u' Ha Hi. eapply sft_ub. apply (IH ((l, x) :: mine)). by apply H.
  - intros [H1 H2]. unfold sft. cbn [sf]. split; [apply elem_of_app; by left|]. rewrite drop_hold_app by done. by apply IH.
  - intros H. unfold sft. cbn [sf]. rewrite app_nil_r. intros u' Ha Hi Hi'. specialize (H u' Ha Hi).
    destruct (f u') as [[b| | |] w']; cbn [fst snd] in *; [eapply sft_ub, IH; by apply H|eapply sft_ub, Hun; by apply H|by apply H|done].
Qed.

(** Calls that need to know nothing of the world: [wp] will do.  What they do
    to the world is under guards of their own, so it leaves alone what the
    caller has guards for. *)
Definition apartl mine h0 : Prop := forall l x, (l, true) ∈ mine -> (l, x) ∉ h0.
Lemma wp_sf h0 ub mine u {A} (p : prog V A) Q : wp w0 nolt True True [] mine p Q -> apartl mine h0 -> near h0 ub u ->
  sf h0 ub mine u p (fun a m u' => Q a m /\ near h0 ub u').
Proof.
  revert mine u. induction p as [a| | | |l x k IH|l x k IH|B lab f k IH]; intros mine u; cbn [wp sf].
  - intros (m & Hm & HQ) _ Hn. exists m. auto.
  - done.
  - intros H. by destruct H.
  - done.
  - intros [_ H] Hap Hn Hc u' Ha Hi. apply IH; [done| |].
    + intros l' x' [[= -> <-]|Hin]%elem_of_cons; [|by apply Hap]. intros Hin. assert (conflict (mine ++ h0) l true = true); [|congruence].
      apply conflict_true. exists x'. split; [apply elem_of_app; by right|]. by destruct x'.
    + eapply near_trans; [exact Hn|]. apply near_agree. eapply agree_sub; [|exact Ha]. intros y Hy. apply elem_of_app. by right.
  - intros [H1 H2] Hap Hn. split; [done|]. apply IH; [done| |done]. intros l' x' Hin. apply Hap. by eapply drop_hold_subset.
  - intros [[Hcf _] H] Hap Hn u' Ha Hi Hi'. destruct (HI u' Hi) as [Sh G]. specialize (H u'). rewrite app_nil_r in Hcf.
    assert (near h0 ub (f u').2) as Hn'.
    { eapply near_trans; [exact Hn|]. eapply near_trans; [apply near_agree; eapply agree_sub; [|exact Ha]; intros y Hy; apply elem_of_app; by right|].
      intros t x Hx. destruct (Hcf u' Sh) as (_ & Hpart & _). specialize (Hpart (LStore t)). unfold places.
      assert ((LStore t, true) ∉ mine) as Hnot. { intros Hin. by apply (Hap _ x Hin). }
      specialize (Hpart Hnot). simpl in Hpart. by rewrite Hpart. }
    assert (inv w0 True u') as Hinv by by split.
    specialize (H Hinv). destruct ((f u').1); [by apply IH|done|by destruct H|done].
Qed.
Lemma wp_sf0 h0 u {A} (p : prog V A) Q : wp w0 nolt True True [] [] p Q ->
  sf h0 u [] u p (fun a m u' => Q a m /\ near h0 u u').
Proof. intros H. apply wp_sf; [done| |apply near_refl]. by intros l x ?%elem_of_nil. Qed.

(** ** Opening queries *)
Lemma near_mine mine h0 u u' : near (mine ++ h0) u u' -> near h0 u u'.
Proof. apply near_sub. intros y Hy. apply elem_of_app. by right. Qed.
Lemma agree_near mine h0 u u' : agree (mine ++ h0) u u' -> near (mine ++ h0) u u'.
Proof. apply near_agree. Qed.
Lemma near_cons y mine h0 u u' : near ((y :: mine) ++ h0) u u' -> near (mine ++ h0) u u'.
Proof. apply near_sub. intros z Hz. by right. Qed.

Lemma sf_find_group h0 ub mine u k a b i n (Q : option nat -> list (lock * bool) -> world V -> Prop) :
  (forall u', near (mine ++ h0) u u' -> Q (gfind w0 k a b i n) mine u') -> (n = 0 -> near (mine ++ h0) u u) ->
  sf h0 ub mine u (p_find_group k a b i n) Q.
Proof.
  intros HQ _. revert i u HQ. induction n as [|n IH]; intros i u HQ; cbn [p_find_group gfind] in *; [apply sf_ret, HQ, near_refl|].
  apply sf_bind, sf_acq. intros u1 A1 I1. apply sf_bind, sf_look. intros u2 A2 I2. apply sf_bind. eapply sf_rel; [done|].
  assert (near (mine ++ h0) u u2) as Hn. { eapply near_trans; [by apply agree_near|]. apply near_agree in A2. by eapply near_cons. }
  destruct (HI u2 I2) as [Sh _]. rewrite <- (sh_groups _ _ Sh i). destruct (bool_decide (group_head i w0 = Some (k, a, b))).
  - apply sf_ret. by apply HQ.
  - apply IH. intros u' Hn'. apply HQ. by eapply near_trans.
Qed.
Lemma downcast_fine u t : good u -> match (downcast u t []).1 with UB => False | _ => True end.
Proof.
  intros G. unfold downcast. destruct (w_comps u !! t) as [st|] eqn:E; [|done]. destruct (st_ty st =? t) eqn:Et; [done|].
  apply Nat.eqb_neq in Et. by destruct (gd_st u G t st E).
Qed.
Lemma sf_downcast h0 ub mine u t (Q : unit -> list (lock * bool) -> world V -> Prop) : near h0 ub u ->
  (forall u', near (mine ++ h0) u u' -> I u' -> Q tt mine u') -> sf h0 ub mine u (p_downcast t) Q.
Proof.
  intros Hb HQ. apply sf_ask. intros u' Ha Hi. pose proof (downcast_fine u' t (proj2 (HI _ Hi))) as Hd. apply agree_near in Ha.
  destruct ((downcast u' t []).1) as [[]| | |]; try done; [by apply HQ|]. eapply near_trans; [exact Hb|by eapply near_mine].
Qed.
Lemma reg_here u t : I u -> has_registered t u = has_registered t w0.
Proof. intros Hi. symmetry. apply shape_has. by apply HI. Qed.

Lemma sf_open q : forall h0 ub mine u (Q : qiter V * list (lock * bool) -> list (lock * bool) -> world V -> Prop), q_own q = true -> near h0 ub u ->
  (forall J hs u', near (mine ++ h0) u u' -> iterk hs u' J -> Q (J, hs) (hs ++ mine) u') -> sf h0 ub mine u (p_open q) Q.
Proof.
  assert (forall hs mine h0 u u', near ((hs ++ mine) ++ h0) u u' -> near (mine ++ h0) u u') as Hw.
  { intros hs mine h0 u u'. apply near_sub. intros y. rewrite !elem_of_app. tauto. }
  assert (forall hs mine h0 u u', near ((hs ++ mine) ++ h0) u u' -> near hs u u') as Hv.
  { intros hs mine h0 u u'. apply near_sub. intros y. rewrite !elem_of_app. tauto. }
  induction q as [m t|a IHa b IHb|a IHa b IHb c IHc|a IHa b IHb c IHc d IHd|a IHa b IHb c IHc d IHd e IHe
    |a IHa b IHb|a IHa b IHb|k ma mb a b]; intros h0 ub mine u Q Hp Hn HQ; cbn [p_open q_own] in *; rewrite ?andb_true_iff in Hp.
  - apply sf_bind, sf_look. intros u1 A1 I1. apply agree_near in A1. assert (near h0 ub u1) as N1 by (eapply near_trans; [exact Hn|by eapply near_mine]).
    apply sf_bind. apply sf_passert; [done|]. intros Hr. apply sf_bind, sf_acq. intros u2 A2 I2. apply agree_near in A2.
    apply sf_bind. apply sf_downcast; [eapply near_trans; [exact N1|by eapply near_mine]|]. intros u3 A3 I3. apply sf_ret. apply (HQ (iter_ref m t)).
    + eapply near_trans; [exact A1|]. eapply near_trans; [exact A2|]. by eapply near_cons.
    + apply iterk_ref. rewrite (reg_here u1 t I1) in Hr. by rewrite (reg_here u3 t I3).
  - destruct Hp as [Pa Pb]. apply sf_bind, IHa; [done|done|]. intros A ha u1 N1 KA. apply sf_bind, IHb; [done| |].
    { eapply near_trans; [exact Hn|by eapply near_mine]. }
    intros B hb u2 N2 KB. apply sf_ret. cbn [fst snd]. rewrite app_assoc. apply HQ.
    + eapply near_trans; [exact N1|]. eapply Hw, N2.
    + apply (iterk_2 with2); [intros; by apply qsafek_with2| |done]. eapply iterk_near; [|exact KA]. eapply Hv, N2.
  - destruct Hp as [[Pa Pb] Pc]. apply sf_bind, IHa; [done|done|]. intros A ha u1 N1 KA.
    assert (near h0 ub u1) as M1 by (eapply near_trans; [exact Hn|by eapply near_mine]).
    apply sf_bind, IHb; [done|done|]. intros B hb u2 N2 KB.
    assert (near h0 ub u2) as M2 by (eapply near_trans; [exact M1|by eapply near_mine]).
    apply sf_bind, IHc; [done|done|]. intros C hc u3 N3 KC.
    apply sf_ret. cbn [fst snd]. replace (hc ++ hb ++ ha ++ mine) with ((hc ++ hb ++ ha) ++ mine) by by rewrite <- !app_assoc. apply HQ.
    + eapply near_trans; [exact N1|]. eapply near_trans; [eapply Hw, N2|]. eapply Hw, Hw, N3.
    + apply iterk_3; [| |done].
      * eapply iterk_near; [|exact KA]. eapply near_trans; [eapply Hv, N2|]. eapply Hv, Hw, N3.
      * eapply iterk_near; [|exact KB]. eapply Hv, N3.
  - destruct Hp as [[[Pa Pb] Pc] Pd]. apply sf_bind, IHa; [done|done|]. intros A ha u1 N1 KA.
    assert (near h0 ub u1) as M1 by (eapply near_trans; [exact Hn|by eapply near_mine]).
    apply sf_bind, IHb; [done|done|]. intros B hb u2 N2 KB.
    assert (near h0 ub u2) as M2 by (eapply near_trans; [exact M1|by eapply near_mine]).
    apply sf_bind, IHc; [done|done|]. intros C hc u3 N3 KC.
    assert (near h0 ub u3) as M3 by (eapply near_trans; [exact M2|by eapply near_mine]).
    apply sf_bind, IHd; [done|done|]. intros D hd u4 N4 KD.
    apply sf_ret. cbn [fst snd]. replace (hd ++ hc ++ hb ++ ha ++ mine) with ((hd ++ hc ++ hb ++ ha) ++ mine) by by rewrite <- !app_assoc. apply HQ.
    + eapply near_trans; [exact N1|]. eapply near_trans; [eapply Hw, N2|]. eapply near_trans; [eapply Hw, Hw, N3|]. eapply Hw, Hw, Hw, N4.
    + apply iterk_4; [| | |done].
      * eapply iterk_near; [|exact KA]. eapply near_trans; [eapply Hv, N2|]. eapply near_trans; [eapply Hv, Hw, N3|]. eapply Hv, Hw, Hw, N4.
      * eapply iterk_near; [|exact KB]. eapply near_trans; [eapply Hv, N3|]. eapply Hv, Hw, N4.
      * eapply iterk_near; [|exact KC]. eapply Hv, N4.
  - destruct Hp as [[[[Pa Pb] Pc] Pd] Pe]. apply sf_bind, IHa; [done|done|]. intros A ha u1 N1 KA.
    assert (near h0 ub u1) as M1 by (eapply near_trans; [exact Hn|by eapply near_mine]).
    apply sf_bind, IHb; [done|done|]. intros B hb u2 N2 KB.
    assert (near h0 ub u2) as M2 by (eapply near_trans; [exact M1|by eapply near_mine]).
    apply sf_bind, IHc; [done|done|]. intros C hc u3 N3 KC.
    assert (near h0 ub u3) as M3 by (eapply near_trans; [exact M2|by eapply near_mine]).
    apply sf_bind, IHd; [done|done|]. intros D hd u4 N4 KD.
    assert (near h0 ub u4) as M4 by (eapply near_trans; [exact M3|by eapply near_mine]).
    apply sf_bind, IHe; [done|done|]. intros E he u5 N5 KE.
    apply sf_ret. cbn [fst snd]. replace (he ++ hd ++ hc ++ hb ++ ha ++ mine) with ((he ++ hd ++ hc ++ hb ++ ha) ++ mine) by by rewrite <- !app_assoc. apply HQ.
    + eapply near_trans; [exact N1|]. eapply near_trans; [eapply Hw, N2|]. eapply near_trans; [eapply Hw, Hw, N3|]. eapply near_trans; [eapply Hw, Hw, Hw, N4|].
      eapply Hw, Hw, Hw, Hw, N5.
    + apply iterk_5; [| | | |done].
      * eapply iterk_near; [|exact KA]. eapply near_trans; [eapply Hv, N2|]. eapply near_trans; [eapply Hv, Hw, N3|]. eapply near_trans; [eapply Hv, Hw, Hw, N4|]. eapply Hv, Hw, Hw, Hw, N5.
      * eapply iterk_near; [|exact KB]. eapply near_trans; [eapply Hv, N3|]. eapply near_trans; [eapply Hv, Hw, N4|]. eapply Hv, Hw, Hw, N5.
      * eapply iterk_near; [|exact KC]. eapply near_trans; [eapply Hv, N4|]. eapply Hv, Hw, N5.
      * eapply iterk_near; [|exact KD]. eapply Hv, N5.
  - destruct Hp as [Pa Pb]. apply sf_bind, IHa; [done|done|]. intros A ha u1 N1 KA. apply sf_bind, IHb; [done| |].
    { eapply near_trans; [exact Hn|by eapply near_mine]. }
    intros B hb u2 N2 KB. apply sf_ret. cbn [fst snd]. rewrite app_assoc. apply HQ.
    + eapply near_trans; [exact N1|]. eapply Hw, N2.
    + apply (iterk_2 without_left); [intros; by apply qsafek_left| |done]. eapply iterk_near; [|exact KA]. eapply Hv, N2.
  - destruct Hp as [Pa Pb]. apply sf_bind, IHa; [done|done|]. intros A ha u1 N1 KA. apply sf_bind, IHb; [done| |].
    { eapply near_trans; [exact Hn|by eapply near_mine]. }
    intros B hb u2 N2 KB. apply sf_ret. cbn [fst snd]. rewrite app_assoc. apply HQ.
    + eapply near_trans; [exact N1|]. eapply Hw, N2.
    + apply (iterk_2 without_right); [intros; by apply qsafek_right| |done]. eapply iterk_near; [|exact KA]. eapply Hv, N2.
  - unfold p_open_group. apply sf_bind, sf_look. intros u1 A1 I1. apply agree_near in A1.
    assert (near h0 ub u1) as M1 by (eapply near_trans; [exact Hn|by eapply near_mine]).
    apply sf_bind. apply sf_passert; [done|]. intros Hr. apply sf_bind, sf_acq. intros u2 A2 I2. apply agree_near in A2.
    assert (near h0 ub u2) as M2 by (eapply near_trans; [exact M1|by eapply near_mine]).
    apply sf_bind, sf_acq. intros u3 A3 I3. apply agree_near in A3.
    assert (near h0 ub u3) as M3 by (eapply near_trans; [exact M2|by eapply near_mine]).
    apply sf_bind. apply sf_downcast; [done|]. intros u4 A4 I4.
    assert (near h0 ub u4) as M4 by (eapply near_trans; [exact M3|by eapply near_mine]).
    apply sf_bind. apply sf_downcast; [done|]. intros u5 A5 I5.
    assert (near h0 ub u5) as M5 by (eapply near_trans; [exact M4|by eapply near_mine]).
    apply sf_bind, sf_look. intros u6 A6 I6. apply agree_near in A6.
    assert (near h0 ub u6) as M6 by (eapply near_trans; [exact M5|by eapply near_mine]).
    apply sf_bind, sf_find_group; [|intros; apply near_refl]. intros u7 A7.
    assert (near h0 ub u7) as M7 by (eapply near_trans; [exact M6|by eapply near_mine]).
    apply sf_bind. apply sf_passert; [done|]. intros _.
    apply sf_bind, sf_find_group; [|intros; apply near_refl]. intros u8 A8.
    assert (near h0 ub u8) as M8 by (eapply near_trans; [exact M7|by eapply near_mine]).
    apply sf_bind. apply sf_punwrap; [done|]. intros g Eg. destruct (gfind_head _ _ _ _ _ _ _ Eg) as [Hh _].
    apply sf_bind, sf_acq. intros u9 A9 I9. apply agree_near in A9.
    assert (near h0 ub u9) as M9 by (eapply near_trans; [exact M8|by eapply near_mine]).
    assert (near (mine ++ h0) u u9) as N9.
    { eapply near_trans; [exact A1|]. eapply near_trans; [exact A2|]. eapply near_trans; [eapply near_cons, A3|].
      do 6 (eapply near_trans; [eapply near_cons, near_cons; eassumption|]). apply near_refl. }
    destruct k; [| |done].
    + apply sf_bind, sf_ask. intros u10 A10 I10. apply agree_near in A10.
      assert (near (mine ++ h0) u u10) as N10. { eapply near_trans; [exact N9|]. by do 3 eapply near_cons. }
      destruct (w_groups u10 !! g) as [gr|] eqn:Egr; [|eapply near_trans; [exact M9|by eapply near_mine]].
      apply sf_ret. apply (HQ (iter_full ma mb a b (g_len gr)) [(LGroup g, false); (LStore b, mb); (LStore a, ma)]); [done|].
      eexists. split; [apply qsafek_full|]. split; [by eapply HF|]. apply holdfast_and; eapply holdfast_within; [right; right; left|right; left].
    + apply sf_bind, sf_ask. intros u10 A10 I10. apply agree_near in A10.
      assert (near (mine ++ h0) u u10) as N10. { eapply near_trans; [exact N9|]. by do 3 eapply near_cons. }
      destruct (w_groups u10 !! g) as [gr|] eqn:Egr; [|eapply near_trans; [exact M9|by eapply near_mine]].
      apply sf_ret. apply (HQ (iter_part ma mb a b (g_len gr)) [(LGroup g, false); (LStore b, mb); (LStore a, ma)]); [done|].
      eexists. split; [apply qsafek_part|]. split; [by eapply HP|]. apply holdfast_and; eapply holdfast_within; [right; right; left|right; left].
Qed.
End sf.

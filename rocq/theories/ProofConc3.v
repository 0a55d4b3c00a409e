(** Running queries stays within their locks; the pieces of work of the calls. *)
From stdpp Require Import prelude list gmap.
From Verif Require Import Base Api ModelSparse ModelEntity ModelGroup ModelWorld ModelQuery ModelStep ModelConc SpecConc
  Spec History ProofSparse ProofWorld ProofWf ProofConc ProofConc2.

Section run.
Context {V : Type}.
Implicit Types (w : world V) (h hs : list (lock * bool)).

Lemma deref_loc_eq hs w w' t i x : (LStore t, x) ∈ hs -> agree hs w w' -> deref_loc w t i = deref_loc w' t i.
Proof. intros Hin [_ Ha]. specialize (Ha _ _ Hin). simpl in Ha. unfold deref_loc. by rewrite Ha. Qed.
Lemma inv_2 hs a b : item_own hs (I2 a b) -> item_own hs a /\ item_own hs b.
Proof. intros H. repeat split; intros m t i Hin; apply (H m t i); cbn [item_refs]; rewrite ?elem_of_app; tauto. Qed.
Lemma inv_3 hs a b c : item_own hs (I3 a b c) -> item_own hs a /\ item_own hs b /\ item_own hs c.
Proof. intros H. repeat split; intros m t i Hin; apply (H m t i); cbn [item_refs]; rewrite ?elem_of_app; tauto. Qed.
Lemma inv_4 hs a b c d : item_own hs (I4 a b c d) -> item_own hs a /\ item_own hs b /\ item_own hs c /\ item_own hs d.
Proof. intros H. repeat split; intros m t i Hin; apply (H m t i); cbn [item_refs]; rewrite ?elem_of_app; tauto. Qed.
Lemma inv_5 hs a b c d e : item_own hs (I5 a b c d e) -> item_own hs a /\ item_own hs b /\ item_own hs c /\ item_own hs d /\ item_own hs e.
Proof. intros H. repeat split; intros m t i Hin; apply (H m t i); cbn [item_refs]; rewrite ?elem_of_app; tauto. Qed.
Lemma deref_eq hs it w w' : item_own hs it -> agree hs w w' -> deref w it = deref w' it.
Proof.
  intros Ho Ha. induction it as [m t i|a IHa b IHb|a IHa b IHb c IHc|a IHa b IHb c IHc d IHd|a IHa b IHb c IHc d IHd e IHe]; simpl.
  - destruct (Ho m t i) as (x & Hx & _); [left|]. by rewrite (deref_loc_eq _ _ _ _ _ _ Hx Ha).
  - apply inv_2 in Ho as (?&?). by rewrite IHa, IHb.
  - apply inv_3 in Ho as (?&?&?). by rewrite IHa, IHb, IHc.
  - apply inv_4 in Ho as (?&?&?&?). by rewrite IHa, IHb, IHc, IHd.
  - apply inv_5 in Ho as (?&?&?&?&?). by rewrite IHa, IHb, IHc, IHd, IHe.
Qed.
Lemma collect_eq hs J n w w' st : qlocal hs J -> agree hs w w' -> collect n w J st = collect n w' J st.
Proof.
  intros HJ Ha. revert st. induction n as [|n IH]; intros st; [done|]. cbn [collect].
  rewrite <- (ql_next_id _ _ HJ _ _ Ha st). pose proof (qy_next_id _ _ HJ w st) as Hy.
  destruct (qi_next_id J w st) as [[[[id it]|]| | |] st']; try done. simpl in Hy. rewrite <- (deref_eq hs it w w') by done.
  destruct (deref w it); [|done]. by rewrite IH.
Qed.
(** changes are within the write locks *)
Definition framed hs w w' : Prop := same_shape w w' /\ forall l, (l, true) ∉ hs -> part_eq l w w'.
Lemma framed_refl hs w : framed hs w w.
Proof. split; [apply shape_refl|]. intros; apply part_refl. Qed.
Lemma framed_trans hs w1 w2 w3 : framed hs w1 w2 -> framed hs w2 w3 -> framed hs w1 w3.
Proof. intros [A B] [C D]. split; [by eapply shape_trans|]. intros l Hl. eapply part_trans; eauto. Qed.
Lemma framed_poke hs w t i g : (LStore t, true) ∈ hs -> framed hs w (poke w t i g).
Proof.
  intros Hin. unfold poke. destruct (w_comps w !! t) as [st|] eqn:E; [|apply framed_refl].
  destruct (sdata (st_set st) !! i); [|apply framed_refl]. split; [by apply shape_comp|]. intros l Hl. apply part_comp_ne. congruence.
Qed.
Lemma agree_step hs w1 w1' w2 w2' : same_shape w1 w2 -> same_shape w1' w2' -> agree hs w1 w1' ->
  (forall l x, (l, x) ∈ hs -> part_eq l w1 w1' -> part_eq l w2 w2') -> agree hs w2 w2'.
Proof.
  intros S1 S2 [S0 Ha] H. split; [|intros l x Hin; eapply H; [done|by eapply Ha]].
  eapply shape_trans; [apply shape_sym, S1|]. by eapply shape_trans.
Qed.
Lemma agree_poke hs w w' t i g : (LStore t, true) ∈ hs -> agree hs w w' -> agree hs (poke w t i g) (poke w' t i g).
Proof.
  intros Hin Ha. eapply agree_step; [apply (framed_poke hs), Hin|apply (framed_poke hs), Hin|exact Ha|].
  intros l x Hl Hp. pose proof (proj2 Ha _ _ Hin) as E. simpl in E. unfold poke. rewrite <- E.
  destruct (w_comps w !! t) as [st|] eqn:Et; [|done]. destruct (sdata (st_set st) !! i); [|done].
  eapply part_comp; [done|by rewrite <- E|done].
Qed.
Lemma framed_poke_item hs f id it w : item_own hs it -> framed hs w (poke_item f id it w).
Proof.
  revert w. induction it as [m t i|a IHa b IHb|a IHa b IHb c IHc|a IHa b IHb c IHc d IHd|a IHa b IHb c IHc d IHd e IHe];
    intros w Ho; simpl.
  - destruct m; [|apply framed_refl]. destruct (Ho true t i) as (x & Hx & E); [left|]. rewrite E in Hx by done. by apply framed_poke.
  - apply inv_2 in Ho as (?&?). eapply framed_trans; [|by apply IHb]. by apply IHa.
  - apply inv_3 in Ho as (?&?&?). eapply framed_trans; [|by apply IHc]. eapply framed_trans; [|by apply IHb]. by apply IHa.
  - apply inv_4 in Ho as (?&?&?&?). eapply framed_trans; [|by apply IHd]. eapply framed_trans; [|by apply IHc]. eapply framed_trans; [|by apply IHb]. by apply IHa.
  - apply inv_5 in Ho as (?&?&?&?&?). eapply framed_trans; [|by apply IHe]. eapply framed_trans; [|by apply IHd]. eapply framed_trans; [|by apply IHc]. eapply framed_trans; [|by apply IHb]. by apply IHa.
Qed.
Lemma agree_poke_item hs f id it w w' : item_own hs it -> agree hs w w' -> agree hs (poke_item f id it w) (poke_item f id it w').
Proof.
  revert w w'. induction it as [m t i|a IHa b IHb|a IHa b IHb c IHc|a IHa b IHb c IHc d IHd|a IHa b IHb c IHc d IHd e IHe];
    intros w w' Ho Ha; simpl.
  - destruct m; [|done]. destruct (Ho true t i) as (x & Hx & E); [left|]. rewrite E in Hx by done. by apply agree_poke.
  - apply inv_2 in Ho as (?&?). eauto.
  - apply inv_3 in Ho as (?&?&?). eauto.
  - apply inv_4 in Ho as (?&?&?&?). eauto 6.
  - apply inv_5 in Ho as (?&?&?&?&?). eauto 7.
Qed.
Lemma drive_local hs J f n st w : qlocal hs J -> framed hs w (drive n J f st w).2 /\
  (forall w', agree hs w w' -> (drive n J f st w').1 = (drive n J f st w).1 /\ agree hs (drive n J f st w).2 (drive n J f st w').2).
Proof.
  intros HJ. revert st w. induction n as [|n IH]; intros st w; [split; [apply framed_refl|done]|]. cbn [drive].
  pose proof (qy_next_id _ _ HJ w st) as Hy.
  assert (forall w', agree hs w w' -> qi_next_id J w' st = qi_next_id J w st) as HE by (intros w' Ha; symmetry; apply (ql_next_id _ _ HJ _ _ Ha)).
  destruct (qi_next_id J w st) as [[[[id it]|]| | |] st']; simpl in Hy.
  2,3,4,5: split; [apply framed_refl|]; intros w' Ha; by rewrite (HE w' Ha).
  destruct (IH st' (poke_item f id it w)) as [F1 F2].
  destruct (deref w it) as [v|] eqn:Ed.
  - split.
    + pose proof (framed_poke_item hs f id it w Hy) as F0.
      destruct (drive n J f st' (poke_item f id it w)) as [[l| | |] w1]; by eapply framed_trans.
    + intros w' Ha. rewrite (HE w' Ha), <- (deref_eq hs it w w' Hy Ha), Ed.
      destruct (F2 _ (agree_poke_item hs f id it w w' Hy Ha)) as [E1 E2].
      destruct (drive n J f st' (poke_item f id it w)) as [[l| | |] w1], (drive n J f st' (poke_item f id it w')) as [[l'| | |] w1']; simpl in *;
        split; congruence || done.
  - split; [apply framed_refl|]. intros w' Ha. by rewrite (HE w' Ha), <- (deref_eq hs it w w' Hy Ha), Ed.
Qed.
Lemma local_confined w0 hs h {B} (m : M (world V) B) : (forall y, y ∈ hs -> y ∈ h) ->
  (forall w, framed hs w (m w).2 /\ forall w', agree hs w w' -> (m w').1 = (m w).1 /\ agree hs (m w).2 (m w').2) -> confined w0 h m.
Proof.
  intros Hs H. apply (confined_sub w0 hs h); [done|]. intros w Hw. destruct (H w) as [[F1 F2] F3].
  split; [done|]. split; [done|]. intros w' Ha. destruct (F3 w' Ha) as [E [_ A]]. done.
Qed.
Lemma confined_drive w0 hs h J f : (forall y, y ∈ hs -> y ∈ h) -> qlocal hs J ->
  confined w0 h (fun w => drive (S (qi_fuel J w (qi_init J))) J f (qi_init J) w).
Proof.
  intros Hs HJ. apply (local_confined w0 hs h _ Hs). intros w. split; [by apply (drive_local hs)|].
  intros w' Ha. rewrite <- (ql_fuel _ _ HJ _ _ (qi_init J) Ha). by apply (drive_local hs).
Qed.
(** *** Iterator calls *)
Lemma rewrite_id s : rewrite_set (V := V) (fun _ v => v) s = s.
Proof.
  destruct s as [i e d]. unfold rewrite_set. simpl. f_equal. apply list_eq. intros k. rewrite list_lookup_imap.
  destruct (d !! k); [|done]. simpl. by destruct (e !! k).
Qed.
Lemma rewrite_set_ext g g' (s : sset V) : (forall e v, g e v = g' e v) -> rewrite_set g s = rewrite_set g' s.
Proof. intros H. unfold rewrite_set. f_equal. apply imap_ext. intros k x _. destruct (entities s !! k); [apply H|done]. Qed.
Lemma framed_rewrite hs g w : framed hs w (rewrite_values (fun t id v => if decide ((LStore t, true) ∈ hs) then g t id v else v) w).
Proof.
  split.
  - split; [|done|done]. intros t. unfold rewrite_values. simpl. rewrite map_lookup_imap. by destruct (w_comps w !! t).
  - intros [|i|t|r] Hl; try done. unfold rewrite_values. simpl. rewrite map_lookup_imap. destruct (w_comps w !! t) as [[ty s]|]; [|done].
    simpl. do 2 f_equal. etrans; [symmetry; apply rewrite_id|]. apply rewrite_set_ext. intros e v. by rewrite decide_False.
Qed.
Lemma agree_rewrite hs g w w' : agree hs w w' -> agree hs (rewrite_values g w) (rewrite_values g w').
Proof.
  assert (forall u, same_shape u (rewrite_values g u)) as Hs.
  { intros u. split; [|done|done]. intros t. unfold rewrite_values. simpl. rewrite map_lookup_imap. by destruct (w_comps u !! t). }
  intros Ha. eapply agree_step; [apply Hs|apply Hs|exact Ha|]. intros [|i|t|r] x Hin Hp; simpl in *; try done.
  rewrite !map_lookup_imap. by rewrite Hp.
Qed.
Definition icall_act (J : qiter V) (st : qi_st J) (hs : list (lock * bool)) (c : qcall V) : M (world V) (outcome (qans V) * qi_st J) :=
  fun w => match run_call J (own_writes hs c) (w, st) with (o, (w', st')) => (Ret (o, st'), w') end.
Lemma confined_icall w0 hs h J st c : (forall y, y ∈ hs -> y ∈ h) -> qlocal hs J -> confined w0 h (icall_act J st hs c).
Proof.
  intros Hs HJ. apply (local_confined w0 hs h _ Hs). intros w. unfold icall_act. destruct c as [| |id| |g]; cbn [own_writes run_call].
  - pose proof (qy_next _ _ HJ w st) as Hy.
    assert (forall w', agree hs w w' -> qi_next J w' st = qi_next J w st) as HE by (intros w' Ha; symmetry; apply (ql_next _ _ HJ _ _ Ha)).
    destruct (qi_next J w st) as [[[it|]| | |] st']; simpl in Hy; simpl;
      try (split; [apply framed_refl|]; intros w' Ha; rewrite (HE w' Ha); done).
    destruct (deref w it) eqn:Ed; (split; [apply framed_refl|]); intros w' Ha; rewrite (HE w' Ha); simpl; rewrite <- (deref_eq hs it w w' Hy Ha), Ed; done.
  - pose proof (qy_next_id _ _ HJ w st) as Hy.
    assert (forall w', agree hs w w' -> qi_next_id J w' st = qi_next_id J w st) as HE by (intros w' Ha; symmetry; apply (ql_next_id _ _ HJ _ _ Ha)).
    destruct (qi_next_id J w st) as [[[[id it]|]| | |] st']; simpl in Hy; simpl;
      try (split; [apply framed_refl|]; intros w' Ha; rewrite (HE w' Ha); done).
    destruct (deref w it) eqn:Ed; (split; [apply framed_refl|]); intros w' Ha; rewrite (HE w' Ha); simpl; rewrite <- (deref_eq hs it w w' Hy Ha), Ed; done.
  - pose proof (qy_from _ _ HJ w id st) as Hy.
    assert (forall w', agree hs w w' -> qi_from_id J w' id st = qi_from_id J w id st) as HE by (intros w' Ha; symmetry; apply (ql_from _ _ HJ _ _ _ Ha)).
    destruct (qi_from_id J w id st) as [[[it|]| | |] st']; simpl in Hy; simpl;
      try (split; [apply framed_refl|]; intros w' Ha; rewrite (HE w' Ha); done).
    destruct (deref w it) eqn:Ed; (split; [apply framed_refl|]); intros w' Ha; rewrite (HE w' Ha); simpl; rewrite <- (deref_eq hs it w w' Hy Ha), Ed; done.
  - assert (forall w', agree hs w w' -> qi_hint J w' st = qi_hint J w st) as HE by (intros w' Ha; symmetry; by eapply ql_hint).
    destruct (qi_hint J w st); simpl; (split; [apply framed_refl|]); intros w' Ha; rewrite (HE w' Ha); done.
  - simpl. split; [apply framed_rewrite|]. intros w' Ha. split; [done|]. by apply agree_rewrite.
Qed.
Definition typed_in w0 (J : qiter V) : Prop := exists T, qsafe T J /\ Forall (fun t => is_Some (w_comps w0 !! t)) T.
Lemma typed_shape w0 w T : same_shape w0 w -> Forall (fun t => is_Some (w_comps w0 !! t)) T -> Forall (fun t => is_Some (w_comps w !! t)) T.
Proof. intros Hs H. eapply Forall_impl; [exact H|]. intros t Ht. by apply (shape_reg _ _ t Hs). Qed.
Lemma icall_good w0 J st hs c w : typed_in w0 J -> same_shape w0 w -> good w ->
  good (icall_act J st hs c w).2 /\ forall o st', (icall_act J st hs c w).1 = Ret (o, st') -> o <> UB.
Proof.
  intros (T & HJ & HT) Hs G. pose proof (typed_shape _ _ _ Hs HT) as HT'. unfold icall_act. destruct c as [| |id| |g]; cbn [own_writes run_call].
  - pose proof (qs_next T J HJ w st G HT') as Hn. destruct (qi_next J w st) as [[[it|]| | |] st']; simpl in *; try (split; [done|]; by intros ? ? [= <- <-]).
    destruct (deref_in w it Hn) as [v ->]. simpl. split; [done|]. by intros ? ? [= <- <-].
  - pose proof (qs_next_id T J HJ w st G HT') as Hn. destruct (qi_next_id J w st) as [[[[id it]|]| | |] st']; simpl in *; try (split; [done|]; by intros ? ? [= <- <-]).
    destruct (deref_in w it Hn) as [v ->]. simpl. split; [done|]. by intros ? ? [= <- <-].
  - pose proof (qs_from T J HJ w id st G HT') as Hn. destruct (qi_from_id J w id st) as [[[it|]| | |] st']; simpl in *; try (split; [done|]; by intros ? ? [= <- <-]).
    destruct (deref_in w it Hn) as [v ->]. simpl. split; [done|]. by intros ? ? [= <- <-].
  - pose proof (qs_hint T J HJ w st G) as Hn. destruct (qi_hint J w st) as [n| | |]; simpl in *; (split; [done|]); by intros ? ? [= <- <-].
  - simpl. split; [by apply good_rewrite|]. by intros ? ? [= <- <-].
Qed.
End run.

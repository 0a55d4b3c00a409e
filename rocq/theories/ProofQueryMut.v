(** Writing through query items; no two items alias. *)
From stdpp Require Import prelude list gmap.
From Verif Require Import Base Api ModelSparse ModelEntity ModelGroup ModelWorld ModelQuery
  Spec ProofSparse ProofEntity ProofGroup ProofWorld ProofOps ProofOps2 ProofQuery ProofQuery2 ProofQuery3.

(** ** Locks are compatible *)
Definition compat (x y : nat * bool) : Prop := x.1 = y.1 -> x.2 = false /\ y.2 = false.
Definition nconf (l : list (nat * bool)) : Prop := forall x y, [x; y] ⊆+ l -> compat x y.

Lemma nconf_sub l k : l ⊆+ k -> nconf k -> nconf l.
Proof. intros S H x y Hs. apply H. by trans l. Qed.
Lemma nconf_nil : nconf [].
Proof. intros x y H. apply submseteq_nil_r in H. done. Qed.
Lemma nconf_cons z l : nconf l -> (forall y, y ∈ l -> compat z y) -> nconf (z :: l).
Proof.
  intros H Hz x y Hs. apply submseteq_cons_r in Hs as [Hs|(l' & Hp & Hs)]; [by apply H|].
  apply Permutation_length_2_inv in Hp as [Hp|Hp]; injection Hp as -> ->;
    apply singleton_submseteq_l in Hs; specialize (Hz _ Hs); unfold compat in *; [done|].
  intros E. destruct Hz as [? ?]; [done|]. done.
Qed.
Lemma nconf_head z l y : nconf (z :: l) -> y ∈ l -> compat z y.
Proof. intros H Hy. apply H. apply submseteq_skip. by apply singleton_submseteq_l. Qed.

Definition mut_types (l : list (nat * bool)) : list nat :=
  omap (fun x : nat * bool => if x.2 then Some x.1 else None) l.
Lemma mut_types_elem l t : t ∈ mut_types l <-> (t, true) ∈ l.
Proof.
  unfold mut_types. rewrite elem_of_list_omap. split.
  - intros ([u m] & Hin & E). simpl in E. destruct m; [|done]. by injection E as ->.
  - intros Hin. by exists (t, true).
Qed.
Lemma mut_types_nodup l : nconf l -> NoDup (mut_types l).
Proof.
  induction l as [|[t m] l IH]; intros H; [constructor|]. simpl.
  assert (NoDup (mut_types l)) as ND by (apply IH; eapply nconf_sub; [|exact H]; by apply submseteq_cons).
  destruct m; [|exact ND]. constructor; [|exact ND]. intros Hin. apply mut_types_elem in Hin.
  destruct (nconf_head _ _ _ H Hin eq_refl) as [? _]. done.
Qed.
Lemma mut_types_app l k : mut_types (l ++ k) = mut_types l ++ mut_types k.
Proof. apply omap_app. Qed.

Fixpoint locks_of (rs : list req) : list (nat * bool) :=
  match rs with
  | [] => []
  | RLock t m :: rs' => (t, m) :: locks_of rs'
  | _ :: rs' => locks_of rs'
  end.
Lemma locks_of_app r1 r2 : locks_of (r1 ++ r2) = locks_of r1 ++ locks_of r2.
Proof. induction r1 as [|[]]; simpl; by rewrite ?IHr1. Qed.

(** the references of an item, statically: type and mutability *)
Fixpoint q_leaves (q : query) : list (nat * bool) :=
  match q with
  | QRef m t => [(t, m)]
  | Q2 a b => q_leaves a ++ q_leaves b
  | Q3 a b c => q_leaves a ++ q_leaves b ++ q_leaves c
  | Q4 a b c d => q_leaves a ++ q_leaves b ++ q_leaves c ++ q_leaves d
  | Q5 a b c d e => q_leaves a ++ q_leaves b ++ q_leaves c ++ q_leaves d ++ q_leaves e
  | QWithoutL a b => q_leaves b
  | QWithoutR a b => q_leaves a
  | QGroup _ ma mb a b => [(a, ma); (b, mb)]
  end.
Lemma q_leaves_locks q : q_leaves q ⊆+ locks_of (q_reqs q).
Proof.
  induction q; simpl; rewrite ?locks_of_app; try done.
  - by apply submseteq_app.
  - repeat apply submseteq_app; done.
  - repeat apply submseteq_app; done.
  - repeat apply submseteq_app; done.
  - by apply submseteq_inserts_l.
  - by apply submseteq_inserts_r.
Qed.
Lemma q_muts_leaves q : q_muts q = mut_types (q_leaves q).
Proof.
  induction q; simpl; rewrite ?mut_types_app; try congruence.
  - by destruct m.
  - by destruct ma, mb.
Qed.

Section qmut.
Context {V : Type}.
Notation world := (world V).
Notation storage := (storage V).
Implicit Types (w : world) (aw : aworld V) (J : qiter V).

Lemma open_reqs_nconf aw rs held : open_reqs aw rs held = Ret tt -> nconf held ->
  nconf (locks_of rs ++ held).
Proof.
  revert held. induction rs as [|[t|t m|k a b] rs IH]; intros held; simpl; intros H N; [done|..].
  - case_decide; [by apply IH|done].
  - destruct (existsb _ held) eqn:E; [done|]. eapply nconf_sub; [|eapply (IH _ H)].
    + by rewrite Permutation_middle.
    + apply nconf_cons; [done|]. intros [u n] Hin Hu. simpl in *. subst u.
      destruct (decide (n = false /\ m = false)) as [[-> ->]|Hn]; [done|]. exfalso.
      assert (existsb (fun x : nat * bool => (x.1 =? t) && (x.2 || m)) held = true) as X; [|congruence].
      apply existsb_exists. exists (t, n). split; [by apply elem_of_list_In|]. simpl.
      rewrite Nat.eqb_refl. simpl. destruct n, m; try done. by destruct Hn.
  - destruct (existsb _ (a_groups aw)); [by apply IH|done].
Qed.
Lemma a_open_nconf aw q : a_open aw q = Ret tt -> nconf (q_leaves q).
Proof.
  intros H. eapply nconf_sub; [apply q_leaves_locks|].
  rewrite <- (app_nil_r (locks_of _)). eapply open_reqs_nconf; [done|apply nconf_nil].
Qed.

(** ** The references of an item *)
Definition ref_ok w (id : nat) (r : bool * nat * nat) : Prop := loc w r.1.2 id = Some r.2.
Definition ref_ty (r : bool * nat * nat) : nat * bool := (r.1.2, r.1.1).
Definition refs_ok w id q it : Prop :=
  ref_ty <$> item_refs it = q_leaves q /\ Forall (ref_ok w id) (item_refs it).

Lemma pair_refs w ma mb a b id it : pair_loc w ma mb a b id = Some it ->
  ref_ty <$> item_refs it = [(a, ma); (b, mb)] /\ Forall (ref_ok w id) (item_refs it).
Proof.
  unfold pair_loc. destruct (loc w a id) eqn:Ea; [|done]. destruct (loc w b id) eqn:Eb; [|done].
  intros [= <-]. simpl. split; [done|]. repeat constructor; done.
Qed.
Lemma q_item_refs w aw q id it : q_item w aw q id = Some it -> refs_ok w id q it.
Proof.
  unfold refs_ok. revert it.
  induction q as [m t|a IHa b IHb|a IHa b IHb c IHc|a IHa b IHb c IHc d IHd|a IHa b IHb c IHc d IHd e IHe
    |a IHa b IHb|a IHa b IHb|k ma mb a b]; intros it; simpl.
  - destruct (loc w t id) as [i|] eqn:E; [|done]. intros [= <-]. simpl. split; [done|]. repeat constructor. done.
  - unfold get2. destruct (q_item w aw a id) as [x|]; [|done]. destruct (q_item w aw b id) as [y|]; [|done].
    intros [= <-]. simpl. destruct (IHa _ eq_refl) as [Ea ?], (IHb _ eq_refl) as [Eb ?].
    rewrite fmap_app, Ea, Eb. split; [done|]. by rewrite !Forall_app.
  - unfold get3. destruct (q_item w aw a id) as [x|]; [|done]. destruct (q_item w aw b id) as [y|]; [|done].
    destruct (q_item w aw c id) as [z|]; [|done].
    intros [= <-]. simpl. destruct (IHa _ eq_refl) as [Ea ?], (IHb _ eq_refl) as [Eb ?], (IHc _ eq_refl) as [Ec ?].
    rewrite !fmap_app, Ea, Eb, Ec. split; [done|]. by rewrite !Forall_app.
  - unfold get4. destruct (q_item w aw a id) as [x|]; [|done]. destruct (q_item w aw b id) as [y|]; [|done].
    destruct (q_item w aw c id) as [z|]; [|done]. destruct (q_item w aw d id) as [u|]; [|done].
    intros [= <-]. simpl. destruct (IHa _ eq_refl) as [Ea ?], (IHb _ eq_refl) as [Eb ?], (IHc _ eq_refl) as [Ec ?], (IHd _ eq_refl) as [Ed ?].
    rewrite !fmap_app, Ea, Eb, Ec, Ed. split; [done|]. by rewrite !Forall_app.
  - unfold get5. destruct (q_item w aw a id) as [x|]; [|done]. destruct (q_item w aw b id) as [y|]; [|done].
    destruct (q_item w aw c id) as [z|]; [|done]. destruct (q_item w aw d id) as [u|]; [|done].
    destruct (q_item w aw e id) as [v|]; [|done].
    intros [= <-]. simpl. destruct (IHa _ eq_refl) as [Ea ?], (IHb _ eq_refl) as [Eb ?], (IHc _ eq_refl) as [Ec ?], (IHd _ eq_refl) as [Ed ?], (IHe _ eq_refl) as [Ee ?].
    rewrite !fmap_app, Ea, Eb, Ec, Ed, Ee. split; [done|]. by rewrite !Forall_app.
  - unfold get_not. destruct (q_item w aw a id); [done|]. apply IHb.
  - unfold get_not. destruct (q_item w aw b id); [done|]. apply IHa.
  - destruct k; [by apply pair_refs|by apply pair_refs|]. destruct (find_agroup aw KNon a b) as [g|]; [|done].
    case_decide; [by apply pair_refs|done].
Qed.

(** ** Abstract updates *)
Definition upd_comps (P : nat -> nat -> bool) (f : nat -> nat -> V -> V) (c : gmap nat (gmap nat V)) :=
  map_imap (fun t m => Some (map_imap (fun id v => Some (if P t id then f t id v else v)) m)) c.
Lemma upd_lookup P f c t :
  upd_comps P f c !! t = (fun m => map_imap (fun id v => Some (if P t id then f t id v else v)) m) <$> c !! t.
Proof. unfold upd_comps. rewrite map_lookup_imap. by destruct (c !! t). Qed.
Lemma upd_lookup2 (P : nat -> bool) (f : nat -> V -> V) (m : gmap nat V) id :
  map_imap (fun id v => Some (if P id then f id v else v)) m !! id = (fun v => if P id then f id v else v) <$> m !! id.
Proof. rewrite map_lookup_imap. by destruct (m !! id). Qed.
Lemma upd_ext P Q f c : (forall t id, is_Some (c !! t ≫= (fun m => m !! id)) -> P t id = Q t id) ->
  upd_comps P f c = upd_comps Q f c.
Proof.
  intros H. apply map_eq. intros t. rewrite !upd_lookup. destruct (c !! t) as [m|] eqn:Et; [|done]. simpl. f_equal.
  apply map_eq. intros id. rewrite !upd_lookup2. destruct (m !! id) as [v|] eqn:Ev; [|done]. simpl.
  rewrite (H t id); [done|]. rewrite Et. simpl. eauto.
Qed.
Lemma upd_id P f c : (forall t id, P t id = false) -> upd_comps P f c = c.
Proof.
  intros H. apply map_eq. intros t. rewrite upd_lookup. destruct (c !! t) as [m|] eqn:Et; [|done]. simpl. f_equal.
  apply map_eq. intros id. rewrite upd_lookup2. rewrite H. by destruct (m !! id).
Qed.
Lemma upd_comp P f aw t id :
  comp (a_set_comps (upd_comps P f (a_comps aw)) aw) t id = (fun v => if P t id then f t id v else v) <$> comp aw t id.
Proof.
  unfold comp. simpl. rewrite upd_lookup. destruct (a_comps aw !! t) as [m|]; [|done]. simpl. by rewrite upd_lookup2.
Qed.
Lemma upd_put P (f : nat -> nat -> V -> V) c t0 id0 m v : P t0 id0 = false -> c !! t0 = Some m -> m !! id0 = Some v ->
  alter (<[id0 := f t0 id0 v]>) t0 (upd_comps P f c) =
  upd_comps (fun t id => P t id || bool_decide ((t, id) = (t0, id0))) f c.
Proof.
  intros HP Hm Hv. apply map_eq. intros t. destruct (decide (t = t0)) as [->|Hne].
  - rewrite lookup_alter, !upd_lookup, Hm. simpl. f_equal. apply map_eq. intros id. rewrite upd_lookup2.
    destruct (decide (id = id0)) as [->|Hid].
    + rewrite lookup_insert, Hv. simpl. rewrite bool_decide_eq_true_2 by done. by rewrite orb_true_r.
    + rewrite lookup_insert_ne, upd_lookup2 by done. rewrite bool_decide_eq_false_2 by congruence. by rewrite orb_false_r.
  - rewrite lookup_alter_ne, !upd_lookup by done. destruct (c !! t) as [m'|]; [|done]. simpl. f_equal.
    apply map_eq. intros id. rewrite !upd_lookup2. rewrite bool_decide_eq_false_2 by congruence. by rewrite orb_false_r.
Qed.

(** ** Concrete updates *)
Lemma poke_R w aw t id i g v : R w aw -> loc w t id = Some i -> comp aw t id = Some v ->
  R (poke w t i g) (a_put t id (g v) aw) /\ shape w (poke w t i g).
Proof.
  intros H Hl Hv. pose proof (loc_comp w aw t id H) as D. rewrite Hl in D. destruct D as [D _].
  unfold loc in Hl. unfold deref_loc in D. unfold poke.
  destruct (w_comps w !! t) as [st|] eqn:Hst; [|done].
  rewrite D, Hv. destruct (srel_Some_r _ _ _ _ _ (R_st _ _ H) Hst) as (m & Hm & Ty & Rt).
  destruct st as [ty s]. simpl in *. subst ty. split.
  - by destruct (poke_spec w aw t s m id i (g v) H Hm Hst Rt Hl).
  - split; [done|]. intros u. simpl. destruct (decide (u = t)) as [->|Hne].
    + rewrite lookup_insert, Hst. unfold sh_st. simpl. by rewrite insert_length.
    + rewrite lookup_insert_ne by done. by destruct (w_comps w !! u).
Qed.

(** writing through one reference *)
Definition poke_ref (f : nat -> nat -> V -> V) (id : nat) w (r : bool * nat * nat) : world :=
  if r.1.1 then poke w r.1.2 r.2 (f r.1.2 id) else w.
Lemma poke_item_refs f id it w : poke_item f id it w = foldl (poke_ref f id) w (item_refs it).
Proof.
  revert w. induction it; intros w; simpl; rewrite ?foldl_app.
  - done.
  - rewrite IHit1. apply IHit2.
  - rewrite IHit1, IHit2. apply IHit3.
  - rewrite IHit1, IHit2, IHit3. apply IHit4.
  - rewrite IHit1, IHit2, IHit3, IHit4. apply IHit5.
Qed.

Lemma refs_R f id rs : forall (P : nat -> nat -> bool) w0 w aw, R w (a_set_comps (upd_comps P f (a_comps aw)) aw) ->
  shape w0 w -> (forall t id, is_Some (loc w0 t id) -> has aw t id) ->
  Forall (ref_ok w0 id) rs -> nconf (ref_ty <$> rs) ->
  (forall t, t ∈ mut_types (ref_ty <$> rs) -> P t id = false) ->
  shape w0 (foldl (poke_ref f id) w rs) /\
  R (foldl (poke_ref f id) w rs)
    (a_set_comps (upd_comps (fun t e => P t e || bool_decide (e = id /\ t ∈ mut_types (ref_ty <$> rs))) f (a_comps aw)) aw).
Proof.
  induction rs as [|[[m t] i] rs IH]; intros P w0 w aw H Sh Hh Hr Hc HP.
  - cbn [foldl fmap list_fmap]. split; [done|]. erewrite upd_ext; [exact H|]. intros t e _. simpl.
    rewrite bool_decide_eq_false_2; [by rewrite orb_false_r|]. intros [_ Hin]. unfold mut_types in Hin. simpl in Hin. by apply elem_of_nil in Hin.
  - apply Forall_cons in Hr as [Hr Hrs]. unfold ref_ok in Hr. simpl in Hr.
    cbn [fmap list_fmap] in Hc, HP |- *. cbn [foldl]. unfold poke_ref at 2 4. cbn [fst snd].
    assert (nconf (ref_ty <$> rs)) as Hc' by (eapply nconf_sub; [|exact Hc]; by apply submseteq_cons).
    destruct m.
    + assert (loc w t id = Some i) as Hl by (by rewrite (loc_shape w0 w t id Sh)).
      assert (has aw t id) as [v Hv] by (apply Hh; rewrite Hr; eauto).
      assert (P t id = false) as HPt.
      { apply HP. apply mut_types_elem. left. }
      assert (comp (a_set_comps (upd_comps P f (a_comps aw)) aw) t id = Some v) as Hv'.
      { rewrite upd_comp, Hv. simpl. by rewrite HPt. }
      destruct (poke_R w _ t id i (f t id) v H Hl Hv') as [H' Sh'].
      set (P' := fun u e => P u e || bool_decide ((u, e) = (t, id))).
      assert (R (poke w t i (f t id)) (a_set_comps (upd_comps P' f (a_comps aw)) aw)) as H2.
      { unfold comp in Hv. destruct (a_comps aw !! t) as [mm|] eqn:Hm; [|done]. simpl in Hv.
        unfold P'. rewrite <- (upd_put P f (a_comps aw) t id mm v HPt Hm Hv). exact H'. }
      destruct (IH P' w0 (poke w t i (f t id)) aw H2) as [S3 H3]; try done.
      * by eapply shape_trans.
      * intros u Hu. unfold P'. rewrite HP.
        -- rewrite bool_decide_eq_false_2; [done|]. intros [= ->].
           apply mut_types_nodup in Hc. unfold mut_types at 1 in Hc. simpl in Hc.
           apply NoDup_cons in Hc as [Hc _]. done.
        -- apply mut_types_elem. right. by apply mut_types_elem.
      * split; [done|]. erewrite upd_ext; [exact H3|]. intros u e _. unfold P'. cbn beta.
        rewrite <- orb_assoc. f_equal.
        destruct (bool_decide ((u, e) = (t, id)) || bool_decide (e = id /\ u ∈ mut_types (ref_ty <$> rs))) eqn:B.
        -- apply bool_decide_eq_true. apply orb_true_iff in B as [B|B]; apply bool_decide_eq_true in B.
           ++ injection B as -> ->. split; [done|]. apply mut_types_elem. left.
           ++ destruct B as [-> B]. split; [done|]. apply mut_types_elem. right. by apply mut_types_elem.
        -- apply bool_decide_eq_false. apply orb_false_iff in B as [B1 B2]. apply bool_decide_eq_false in B1, B2.
           intros [-> Hu]. apply mut_types_elem in Hu. apply elem_of_cons in Hu as [Hu|Hu].
           ++ unfold ref_ty in Hu. simpl in Hu. injection Hu as ->. done.
           ++ apply B2. split; [done|]. by apply mut_types_elem.
    + apply (IH P w0 w aw); try done.
Qed.

(** ** Driving an iterator to the end *)
Lemma deref_ext w w' it : Forall (fun r => deref_loc w' r.1.2 r.2 = deref_loc w r.1.2 r.2) (item_refs it) ->
  deref w' it = deref w it.
Proof.
  induction it; simpl; rewrite ?Forall_app; intros H.
  - apply Forall_cons in H as [H _]. simpl in H. by rewrite H.
  - destruct H as [H1 H2]. by rewrite IHit1, IHit2.
  - destruct H as (H1 & H2 & H3). by rewrite IHit1, IHit2, IHit3.
  - destruct H as (H1 & H2 & H3 & H4). by rewrite IHit1, IHit2, IHit3, IHit4.
  - destruct H as (H1 & H2 & H3 & H4 & H5). by rewrite IHit1, IHit2, IHit3, IHit4, IHit5.
Qed.
Lemma deref_upd (P : nat -> nat -> bool) f w0 w aw id it :
  R w0 aw -> R w (a_set_comps (upd_comps P f (a_comps aw)) aw) -> shape w0 w ->
  Forall (ref_ok w0 id) (item_refs it) -> (forall t, P t id = false) ->
  deref w it = deref w0 it.
Proof.
  intros H0 H Sh F HP. apply deref_ext. eapply Forall_impl; [exact F|]. intros [[m t] i] Hl. unfold ref_ok in Hl. simpl in *.
  pose proof (loc_comp w0 aw t id H0) as L0. rewrite Hl in L0. destruct L0 as [-> _].
  pose proof (loc_comp w _ t id H) as L1. rewrite (loc_shape w0 w t id Sh), Hl in L1. destruct L1 as [-> _].
  rewrite upd_comp, HP. by destruct (comp aw t id).
Qed.

Lemma drive_spec (w0 : world) J f (Rst : qi_st J -> list (nat * item) -> Prop) ls aw :
  (forall w', shape w0 w' -> forall st l, Rst st l -> match l with
       | [] => exists st', qi_next_id J w' st = (Ret None, st') /\ Rst st' []
       | x :: l' => exists st', qi_next_id J w' st = (Ret (Some x), st') /\ Rst st' l'
       end) ->
  R w0 aw ->
  nconf ls ->
  forall l vs, Forall2 (fun (x : nat * item) (y : nat * vtree V) => y.1 = x.1 /\ deref w0 x.2 = Some y.2) l vs ->
  forall (P : nat -> nat -> bool) fuel st w,
  R w (a_set_comps (upd_comps P f (a_comps aw)) aw) -> shape w0 w ->
  NoDup l.*1 ->
  (forall x, x ∈ l -> ref_ty <$> item_refs x.2 = ls /\ Forall (ref_ok w0 x.1) (item_refs x.2)) ->
  (forall id t, id ∈ l.*1 -> P t id = false) ->
  Rst st l -> length l < fuel ->
  exists w', drive fuel J f st w = (Ret vs, w') /\
    R w' (a_set_comps (upd_comps (fun t e => P t e || (bool_decide (e ∈ l.*1) && bool_decide (t ∈ mut_types ls))) f (a_comps aw)) aw).
Proof.
  intros Hn H0 Hc. induction 1 as [|[id it] [id' v] l vs [E1 E2] F IH]; intros P fuel st w H Sh ND Hrefs HP Hst Hf;
    (destruct fuel as [|fuel]; [simpl in Hf; lia|]); cbn [drive]; pose proof (Hn w Sh _ _ Hst) as N.
  - destruct N as (st' & -> & _). exists w. split; [done|]. erewrite upd_ext; [exact H|]. intros t e _. simpl.
    by rewrite orb_false_r.
  - destruct N as (st' & -> & Hst'). cbn [fmap list_fmap fst] in ND, HP. apply NoDup_cons in ND as [Hnin ND].
    simpl in E1, E2. subst id'.
    destruct (Hrefs (id, it) (elem_of_list_here _ _)) as [Ety Hloc]. simpl in Ety, Hloc.
    rewrite (deref_upd P f w0 w aw id it H0 H Sh Hloc) by (intros t; apply HP; left). rewrite E2.
    rewrite poke_item_refs. rewrite <- Ety in Hc.
    destruct (refs_R f id (item_refs it) P w0 w aw H Sh) as [S1 H1].
    { intros t e [i Hi]. pose proof (loc_comp w0 aw t e H0) as D. rewrite Hi in D. apply D. }
    { done. } { done. }
    { intros t _. apply HP. left. }
    rewrite Ety in H1, Hc.
    destruct (IH _ fuel st' _ H1 S1 ND) as (w' & E & H'); [..|exists w'; rewrite E; split; [done|]].
    + intros x Hx. apply Hrefs. by right.
    + intros e t He. rewrite HP by (by right). rewrite bool_decide_eq_false_2; [done|]. intros [-> _]. done.
    + done.
    + simpl in Hf. lia.
    + erewrite upd_ext; [exact H'|]. intros t e _. simpl. rewrite <- orb_assoc. f_equal.
      rewrite bool_decide_and. rewrite <- andb_orb_distrib_l. f_equal.
      destruct (decide (e = id)) as [->|Hne].
      * rewrite (bool_decide_eq_true_2 (id = id)) by done. rewrite bool_decide_eq_true_2 by left. done.
      * rewrite (bool_decide_eq_false_2 (e = id)) by done. apply bool_decide_ext. rewrite elem_of_cons. naive_solver.
Qed.

Lemma run_query_mut_spec w aw q f : R w aw -> q_fresh aw q = true ->
  match a_open aw q with
  | Ret _ => exists l w', run_query_mut q f w = (Ret l, w') /\ q_result aw q l /\ R w' (a_query_mut q f aw)
  | Panic => run_query_mut q f w = (Panic, w)
  | UB => False
  | Block => run_query_mut q f w = (Block, w)
  end.
Proof.
  intros H Hf. pose proof (query_open_ok w aw q [] [] H Hf) as O. rewrite app_nil_r in O.
  assert (a_open aw q = Ret tt -> nconf (q_leaves q)) as Hc by apply a_open_nconf.
  unfold a_open in *. unfold run_query_mut. destruct (query_open w q []) as [[J| | |] h']; simpl in O.
  2:{ by rewrite O. } 2:{ done. } 2:{ by rewrite O. }
  destruct O as (Eo & l & OK & Ord & Vis). rewrite Eo in *. cbn [open_reqs]. pose proof OK as [ND Gt (Rst & R0 & Run)].
  specialize (Hc eq_refl).
  destruct (items_values _ w aw q J l H OK Vis) as (vs & F & Hvs).
  destruct (drive_spec w J f Rst (q_leaves q) aw) with (l := l) (vs := vs) (P := fun _ _ : nat => false)
    (fuel := S (qi_fuel J w (qi_init J))) (st := qi_init J) (w := w) as (w' & E & H').
  - intros w' Hw st l0 H0. apply (Run w' Hw st l0 H0).
  - done.
  - done.
  - eapply Forall2_impl; [exact F|]. intros x y (E1 & _ & E2). done.
  - rewrite upd_id by done. by destruct aw.
  - apply shape_refl.
  - done.
  - intros [id it] Hin. simpl. apply Gt in Hin. by apply q_item_refs in Hin.
  - done.
  - done.
  - pose proof (Run w (shape_refl w) _ _ R0) as (_ & _ & _ & Hlen & _). lia.
  - exists vs, w'. split; [done|]. split; [done|]. unfold a_query_mut. erewrite upd_ext in H'; [exact H'|].
    intros t id _. simpl. rewrite q_muts_leaves. f_equal. apply eq_true_iff_eq. rewrite bool_decide_eq_true. apply Vis.
Qed.

(** ** All the references of all the items *)
Lemma collect_items_spec w J l (Rst : qi_st J -> list (nat * item) -> Prop) :
  (forall st l, Rst st l -> match l with
       | [] => exists st', qi_next_id J w st = (Ret None, st') /\ Rst st' []
       | x :: l' => exists st', qi_next_id J w st = (Ret (Some x), st') /\ Rst st' l'
       end) ->
  forall fuel st, Rst st l -> length l < fuel -> collect_items fuel w J st = Ret l.
Proof.
  intros Hn. induction l as [|x l IH]; intros fuel st Hst Hf;
    (destruct fuel as [|fuel]; [simpl in Hf; lia|]); cbn [collect_items]; pose proof (Hn _ _ Hst) as N.
  - destruct N as (st' & -> & _). done.
  - destruct N as (st' & -> & Hst'). rewrite (IH fuel st' Hst') by (simpl in Hf; lia). done.
Qed.

Lemma query_items_spec w aw q : R w aw -> q_fresh aw q = true ->
  match a_open aw q with
  | Ret _ => exists l, query_items w q = Ret l /\ NoDup l.*1 /\
      (forall id it, (id, it) ∈ l -> q_item w aw q id = Some it) /\
      (forall id, id ∈ l.*1 <-> q_visits aw q id = true)
  | Panic => query_items w q = Panic
  | UB => False
  | Block => query_items w q = Block
  end.
Proof.
  intros H Hf. pose proof (query_open_ok w aw q [] [] H Hf) as O. rewrite app_nil_r in O.
  unfold a_open. unfold query_items. destruct (query_open w q []) as [[J| | |] h']; simpl in O.
  2:{ by rewrite O. } 2:{ done. } 2:{ by rewrite O. }
  destruct O as (-> & l & OK & Ord & Vis). pose proof OK as [ND Gt (Rst & R0 & Run)]. cbn [open_reqs].
  exists l. split; [|done]. eapply (collect_items_spec w J l Rst); [|done|].
  - intros st l0 H0. apply (Run w (shape_refl w) st l0 H0).
  - pose proof (Run w (shape_refl w) _ _ R0) as (_ & _ & _ & Hlen & _). lia.
Qed.

Lemma loc_inj w aw t id id' i : R w aw -> loc w t id = Some i -> loc w t id' = Some i -> id = id'.
Proof.
  intros H. unfold loc. destruct (w_comps w !! t) as [st|] eqn:E; [|done].
  destruct (srel_Some_r _ _ _ _ _ (R_st _ _ H) E) as (m & _ & _ & [W _ _]). intros H1 H2.
  apply (wf_pos _ W) in H1, H2. congruence.
Qed.

(** Two references at different places in the collected items to the same
    component belong to the same item and are both shared. *)
Lemma no_alias w aw q l p p' id id' it it' j j' m m' t i : R w aw -> q_fresh aw q = true ->
  query_items w q = Ret l ->
  l !! p = Some (id, it) -> l !! p' = Some (id', it') ->
  item_refs it !! j = Some (m, t, i) -> item_refs it' !! j' = Some (m', t, i) ->
  (p, j) <> (p', j') -> m = false /\ m' = false.
Proof.
  intros H Hf Hq Hp Hp' Hj Hj' Hne.
  pose proof (query_items_spec w aw q H Hf) as S. pose proof (a_open_nconf aw q) as Hc.
  destruct (a_open aw q) as [[]| | |]; [|congruence|done|congruence].
  destruct S as (l' & E & ND & Gt & _). rewrite Hq in E. injection E as <-. specialize (Hc eq_refl).
  pose proof (elem_of_list_lookup_2 _ _ _ Hp) as Hin. pose proof (elem_of_list_lookup_2 _ _ _ Hp') as Hin'.
  apply Gt in Hin, Hin'. destruct (q_item_refs _ _ _ _ _ Hin) as [Et Fl]. destruct (q_item_refs _ _ _ _ _ Hin') as [Et' Fl'].
  pose proof (Forall_lookup_1 _ _ _ _ Fl Hj) as L. pose proof (Forall_lookup_1 _ _ _ _ Fl' Hj') as L'.
  unfold ref_ok in L, L'. simpl in L, L'. pose proof (loc_inj w aw t id id' i H L L') as <-.
  assert (p = p') as <-.
  { eapply NoDup_lookup; [exact ND| |]; rewrite list_lookup_fmap; [rewrite Hp|rewrite Hp']; done. }
  rewrite Hp in Hp'. injection Hp' as <-. assert (j <> j') as Hjj by congruence.
  rewrite <- Et in Hc.
  destruct (Hc (t, m) (t, m')) as [? ?]; [|done..].
  change [(t, m); (t, m')] with (ref_ty <$> [(m, t, i); (m', t, i)]). 
  apply fmap_submseteq.
  clear -Hj Hj' Hjj. revert j j' Hj Hj' Hjj. induction (item_refs it) as [|r rs IH]; intros j j' Hj Hj' Hjj; [done|].
  destruct j as [|j], j' as [|j']; simpl in *; [done|..].
  - injection Hj as ->. apply submseteq_skip. apply singleton_submseteq_l. by eapply elem_of_list_lookup_2.
  - injection Hj' as ->. rewrite (Permutation_swap (m', t, i) (m, t, i) []). apply submseteq_skip.
    apply singleton_submseteq_l. by eapply elem_of_list_lookup_2.
  - apply submseteq_cons. eapply IH; [done|done|]. congruence.
Qed.
End qmut.

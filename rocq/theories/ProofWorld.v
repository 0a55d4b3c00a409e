(** The refinement relation between the world model and the specification,
    and the effect of group methods on it. *)
From stdpp Require Import prelude list gmap.
From Verif Require Import Base Api ModelSparse ModelEntity ModelGroup ModelWorld
  Spec ProofSparse ProofEntity ProofGroup.

Lemma bind_ret {S A B} (m : M S A) (k : A -> M S B) s a s' :
  m s = (Ret a, s') -> bind m k s = k a s'.
Proof. intros H. unfold bind. by rewrite H. Qed.
Lemma bind_panic {S A B} (m : M S A) (k : A -> M S B) s s' :
  m s = (Panic, s') -> bind m k s = (Panic, s').
Proof. intros H. unfold bind. by rewrite H. Qed.
Lemma bind_get {S B} (k : S -> M S B) s : bind get k s = k s s.
Proof. done. Qed.
Lemma bind_put {S B} (k : unit -> M S B) s s' : bind (put s') k s = k tt s'.
Proof. done. Qed.
Lemma bind_retv {S A B} (a : A) (k : A -> M S B) s : bind (ret a) k s = k a s.
Proof. done. Qed.
Lemma bind_lift {S A B} (a : A) (k : A -> M S B) s : bind (lift (Ret a)) k s = k a s.
Proof. done. Qed.
Lemma bind_assert_true {S B} (b : bool) (k : unit -> M S B) s : b = true -> bind (assert b) k s = k tt s.
Proof. by intros ->. Qed.
Lemma bind_assert_false {S B} (b : bool) (k : unit -> M S B) s : b = false -> bind (assert b) k s = (Panic, s).
Proof. by intros ->. Qed.

Section world.
Context {V : Type}.
Notation world := (world V).
Notation storage := (storage V).
Implicit Types (w : world) (aw : aworld V) (cs : gmap nat storage) (ac : gmap nat (gmap nat V)).

(** Storages represent the abstract maps. *)
Definition srel cs ac (slots : nat -> nat) : Prop := forall t,
  match cs !! t, ac !! t with
  | Some st, Some m => st_ty st = t /\ ss_rep (st_set st) m (slots t)
  | None, None => slots t = 0
  | _, _ => False
  end.

Definition gstat (g : group) (ag : agroup) : Prop :=
  match g with
  | GFull d => ag_kind ag = KFull /\ ag_a ag = fd_a d /\ ag_b ag = fd_b d
  | GPart d => ag_kind ag = KPart /\ ag_a ag = pd_a d /\ ag_b ag = pd_b d
  | GNon d => ag_kind ag = KNon /\ ag_a ag = nd_a d /\ ag_b ag = nd_b d
  end.
Definition gdyn (g : group) (a b : sset V) (mem : gset nat) (fr : bool) : Prop :=
  match g with
  | GFull d => full_ok (fd_len d) a b mem
  | GPart d => part_ok (pd_len d) a b mem
  | GNon d => non_ok (nd_set d) a b mem fr
  end.
Definition gwf cs (ag : agroup) : Prop :=
  (ag_kind ag = KNon \/ ag_a ag <> ag_b ag) /\ is_Some (cs !! ag_a ag) /\ is_Some (cs !! ag_b ag).
Record gok cs (g : group) (ag : agroup) : Prop := {
  gok_stat : gstat g ag;
  gok_ne : ag_kind ag = KNon \/ ag_a ag <> ag_b ag;
  gok_dyn : exists sa sb, cs !! ag_a ag = Some sa /\ cs !! ag_b ag = Some sb /\
     gdyn g (st_set sa) (st_set sb) (ag_mem ag) (ag_fresh ag)
}.

(** No type is owned by two groups. *)
Definition safe (ags : list agroup) : Prop :=
  forall i j g h t, i < j -> ags !! i = Some g -> ags !! j = Some h ->
    ag_owns g t = true -> ag_owns h t = false.

Lemma owns_types g t : ag_owns g t = true -> ag_types g t = true.
Proof. unfold ag_owns, ag_types. destruct (ag_kind g); [done|intros ->; done|done]. Qed.
Lemma safe_disj ags i j g h t : safe ags -> i <> j -> ags !! i = Some g -> ags !! j = Some h ->
  ag_owns g t = true -> ag_owns h t = false.
Proof.
  intros S Hij Hi Hj Ho. destruct (ag_owns h t) eqn:E; [|done].
  destruct (decide (i < j)).
  - pose proof (S i j g h t l Hi Hj Ho). congruence.
  - assert (j < i) as Hlt by lia. pose proof (S j i h g t Hlt Hj Hi E). congruence.
Qed.
Definition ag_static (g h : agroup) : Prop :=
  ag_kind g = ag_kind h /\ ag_a g = ag_a h /\ ag_b g = ag_b h.
Lemma static_owns g h t : ag_static g h -> ag_owns g t = ag_owns h t.
Proof. intros (K & A & B). unfold ag_owns. by rewrite K, A, B. Qed.
Lemma static_types g h t : ag_static g h -> ag_types g t = ag_types h t.
Proof. intros (K & A & B). unfold ag_types. by rewrite A, B. Qed.
Lemma safe_static ags ags' : Forall2 ag_static ags ags' -> safe ags -> safe ags'.
Proof.
  intros F S i j g h t Hij Hi Hj.
  destruct (Forall2_lookup_r _ _ _ _ _ F Hi) as (g0 & Hi0 & Sg).
  destruct (Forall2_lookup_r _ _ _ _ _ F Hj) as (h0 & Hj0 & Sh).
  rewrite <- (static_owns _ _ _ Sg), <- (static_owns _ _ _ Sh). by eapply S.
Qed.

Record R w aw : Prop := {
  R_em : em_rel (w_em w) (a_next aw) (a_free aw);
  R_st : srel (w_comps w) (a_comps aw) (a_slots aw);
  R_gr : Forall2 (gok (w_comps w)) (w_groups w) (a_groups aw);
  R_safe : safe (a_groups aw);
  R_res : forall r, w_res w !! r = RV r <$> a_res aw !! r
}.

(** ** srel *)
Lemma srel_Some cs ac sl t m : srel cs ac sl -> ac !! t = Some m ->
  exists st, cs !! t = Some st /\ st_ty st = t /\ ss_rep (st_set st) m (sl t).
Proof. intros H Hm. specialize (H t). rewrite Hm in H. destruct (cs !! t) as [st|]; [|done]. eauto. Qed.
Lemma srel_Some_r cs ac sl t st : srel cs ac sl -> cs !! t = Some st ->
  exists m, ac !! t = Some m /\ st_ty st = t /\ ss_rep (st_set st) m (sl t).
Proof. intros H Hm. specialize (H t). rewrite Hm in H. destruct (ac !! t) as [m|]; [|done]. eauto. Qed.
Lemma srel_None cs ac sl t : srel cs ac sl -> cs !! t = None <-> ac !! t = None.
Proof. intros H. specialize (H t). destruct (cs !! t), (ac !! t); done. Qed.
Lemma srel_is_Some cs ac sl t : srel cs ac sl -> is_Some (cs !! t) <-> is_Some (ac !! t).
Proof. intros H. rewrite <- !not_eq_None_Some. by rewrite (srel_None _ _ _ t H). Qed.
Lemma has_registered_spec w aw t : srel (w_comps w) (a_comps aw) (a_slots aw) ->
  has_registered t w = bool_decide (registered aw t).
Proof. intros H. unfold has_registered, registered. apply bool_decide_ext. by eapply srel_is_Some. Qed.

(** replacing one storage *)
Lemma srel_insert cs ac sl t st s' m' n' : srel cs ac sl -> cs !! t = Some st ->
  ss_rep s' m' n' ->
  srel (<[t := St (st_ty st) s']> cs) (<[t := m']> ac) (fun u => if decide (u = t) then n' else sl u).
Proof.
  intros H Ht R' u. destruct (srel_Some_r _ _ _ _ _ H Ht) as (m & Hm & Ty & _).
  destruct (decide (u = t)) as [->|Hne].
  - rewrite !lookup_insert. done.
  - rewrite !lookup_insert_ne by done. apply H.
Qed.
Lemma srel_insert_same cs ac sl t st s' m : srel cs ac sl -> cs !! t = Some st -> ac !! t = Some m ->
  ss_rep s' m (sl t) -> srel (<[t := St (st_ty st) s']> cs) ac sl.
Proof.
  intros H Ht Hm R' u. destruct (srel_Some_r _ _ _ _ _ H Ht) as (m2 & Hm2 & Ty & _).
  destruct (decide (u = t)) as [->|Hne].
  - rewrite lookup_insert, Hm. done.
  - rewrite lookup_insert_ne by done. apply H.
Qed.

(** ** gok and changes of storages *)
Lemma gok_change cs cs' g ag fr' :
  gok cs g ag ->
  (fr' = true -> ag_fresh ag = true) ->
  (forall t st, ag_types ag t = true -> cs !! t = Some st -> exists st', cs' !! t = Some st' /\
     (ag_owns ag t = true -> take (g_len g) (entities (st_set st')) = take (g_len g) (entities (st_set st))) /\
     (forall e, e ∈ ag_mem ag -> e ∈ entities (st_set st) -> e ∈ entities (st_set st')) /\
     (fr' = true -> forall e, e ∈ ag_mem ag -> ss_get_index (st_set st') e = ss_get_index (st_set st) e)) ->
  gok cs' g (AG (ag_kind ag) (ag_a ag) (ag_b ag) (ag_mem ag) fr').
Proof.
  intros [St Ne (sa & sb & Ha & Hb & Hd)] Hfr Hc. split; [done|done|]. simpl.
  destruct (Hc (ag_a ag) sa) as (sa' & Ha' & Ta & Ma & Fa); [unfold ag_types; by rewrite Nat.eqb_refl|done|].
  destruct (Hc (ag_b ag) sb) as (sb' & Hb' & Tb & Mb & Fb); [unfold ag_types; by rewrite Nat.eqb_refl, orb_true_r|done|].
  exists sa', sb'. split; [done|]. split; [done|].
  destruct g as [d|d|d]; simpl in *; destruct St as (K & _ & _).
  - eapply full_ok_keeps; [done| |].
    + apply Ta. unfold ag_owns. by rewrite K, Nat.eqb_refl.
    + apply Tb. unfold ag_owns. by rewrite K, Nat.eqb_refl, orb_true_r.
  - eapply part_ok_keeps; [done| |done].
    apply Ta. unfold ag_owns. by rewrite K, Nat.eqb_refl.
  - eapply non_ok_keeps; [done|done|done|].
    intros Hx. split; [auto|]. intros e He. split; [by apply Fa|by apply Fb].
Qed.
Lemma agroup_eta ag : AG (ag_kind ag) (ag_a ag) (ag_b ag) (ag_mem ag) (ag_fresh ag) = ag.
Proof. by destruct ag. Qed.
Lemma gok_weaken cs g ag fr' : gok cs g ag -> (fr' = true -> ag_fresh ag = true) ->
  gok cs g (AG (ag_kind ag) (ag_a ag) (ag_b ag) (ag_mem ag) fr').
Proof. intros H Hf. eapply gok_change; [done|done|]. intros t st _ Ht. exists st. done. Qed.
(** members have both components *)
Lemma gok_mem cs ac sl g ag e : srel cs ac sl -> gok cs g ag -> e ∈ ag_mem ag ->
  exists ma mb, ac !! ag_a ag = Some ma /\ ac !! ag_b ag = Some mb /\ is_Some (ma !! e) /\ is_Some (mb !! e).
Proof.
  intros S [_ _ (sa & sb & Ha & Hb & Hd)] He.
  destruct (srel_Some_r _ _ _ _ _ S Ha) as (ma & Hma & _ & Ra).
  destruct (srel_Some_r _ _ _ _ _ S Hb) as (mb & Hmb & _ & Rb).
  exists ma, mb. split; [done|]. split; [done|].
  assert (e ∈ entities (st_set sa) /\ e ∈ entities (st_set sb)) as [H1 H2].
  { destruct g as [d|d|d]; simpl in Hd.
    - eapply full_ok_elem; [apply Ra|apply Rb|done|done].
    - by eapply part_ok_elem.
    - destruct Hd as (_ & _ & Hs & _). by apply Hs. }
  split; by eapply rep_elem.
Qed.
(** position of a non-member in an owned storage is beyond the prefix *)
Lemma gok_nonmem_pos cs ac sl g ag t st e i : srel cs ac sl -> gok cs g ag ->
  ag_owns ag t = true -> cs !! t = Some st -> ss_get_index (st_set st) e = Some i -> e ∉ ag_mem ag -> g_len g <= i.
Proof.
  intros S [St _ (sa & sb & Ha & Hb & Hd)] Ho Ht Hi He.
  destruct (srel_Some_r _ _ _ _ _ S Ht) as (m & _ & _ & Rt). pose proof (rep_wf _ _ _ Rt) as W.
  destruct g as [d|d|d]; simpl in *; destruct St as (K & _ & _); unfold ag_owns in Ho; rewrite K in Ho; [| |done].
  - destruct Hd as (L1 & L2 & T & Hm). rewrite Hm in He.
    apply orb_true_iff in Ho as [Ho|Ho]; apply Nat.eqb_eq in Ho; subst t.
    + assert (sa = st) as -> by congruence. rewrite elem_of_list_to_set, (elem_take_pos _ e i) in He by done. lia.
    + assert (sb = st) as -> by congruence. rewrite T, elem_of_list_to_set, (elem_take_pos _ e i) in He by done. lia.
  - destruct Hd as (L1 & Hm & _). rewrite Hm in He. apply Nat.eqb_eq in Ho; subst t.
    assert (sa = st) as -> by congruence. rewrite elem_of_list_to_set, (elem_take_pos _ e i) in He by done. lia.
Qed.

(** ** the group methods in the world *)

(** What a method of group [ag] may do to the storages, and its new members. *)
Record run_post cs ac sl (ag : agroup) cs' (g' : group) (mem' : gset nat) : Prop := {
  rp_srel : srel cs' ac sl;
  rp_frame : forall t, ag_owns ag t = false -> cs' !! t = cs !! t;
  rp_gok : gok cs' g' (AG (ag_kind ag) (ag_a ag) (ag_b ag) mem' (ag_fresh ag))
}.

Definition both_has ac (a b id : nat) : bool :=
  bool_decide (is_Some (ac !! a ≫= (.!! id))) && bool_decide (is_Some (ac !! b ≫= (.!! id))).

Lemma run_group_full w i d sa sb ff fp fn c : w_groups w !! i = Some (GFull d) ->
  w_comps w !! fd_a d = Some sa -> w_comps w !! fd_b d = Some sb -> fd_a d <> fd_b d ->
  ff (GC d (st_set sa) (st_set sb)) = (Ret tt, c) ->
  run_group_at i ff fp fn w = (Ret tt,
    set_groups (<[i := GFull (gc_d c)]> (w_groups w))
      (set_comps (<[fd_b d := St (st_ty sb) (gc_b c)]> (<[fd_a d := St (st_ty sa) (gc_a c)]> (w_comps w))) w)).
Proof.
  intros Hi Ha Hb Hne Hf. unfold run_group_at. rewrite Hi, Ha. apply Nat.eqb_neq in Hne as ->.
  by rewrite Hb, Hf.
Qed.
Lemma run_group_part w i d sa sb ff fp fn c : w_groups w !! i = Some (GPart d) ->
  w_comps w !! pd_a d = Some sa -> w_comps w !! pd_b d = Some sb -> pd_a d <> pd_b d ->
  fp (GC d (st_set sa) (st_set sb)) = (Ret tt, c) ->
  run_group_at i ff fp fn w = (Ret tt,
    set_groups (<[i := GPart (gc_d c)]> (w_groups w))
      (set_comps (<[pd_a d := St (st_ty sa) (gc_a c)]> (w_comps w)) w)).
Proof.
  intros Hi Ha Hb Hne Hf. unfold run_group_at. rewrite Hi, Ha. apply Nat.eqb_neq in Hne as ->.
  by rewrite Hb, Hf.
Qed.
Lemma run_group_non w i d sa sb ff fp fn c : w_groups w !! i = Some (GNon d) ->
  w_comps w !! nd_a d = Some sa -> w_comps w !! nd_b d = Some sb ->
  fn (GC d (st_set sa) (st_set sb)) = (Ret tt, c) ->
  run_group_at i ff fp fn w = (Ret tt, set_groups (<[i := GNon (gc_d c)]> (w_groups w)) (set_comps (w_comps w) w)).
Proof.
  intros Hi Ha Hb Hf. unfold run_group_at. rewrite Hi, Ha, Hb, Hf. done.
Qed.

Lemma srel_two cs ac sl ta tb sa sb a' b' ma mb : srel cs ac sl -> ta <> tb ->
  cs !! ta = Some sa -> cs !! tb = Some sb -> ac !! ta = Some ma -> ac !! tb = Some mb ->
  ss_rep a' ma (sl ta) -> ss_rep b' mb (sl tb) ->
  srel (<[tb := St (st_ty sb) b']> (<[ta := St (st_ty sa) a']> cs)) ac sl.
Proof.
  intros S Hne Ha Hb Hma Hmb Ra Rb. eapply srel_insert_same; [|by rewrite lookup_insert_ne|done|done].
  by eapply srel_insert_same.
Qed.

Ltac two_storages S Ha Hb :=
  let ma := fresh "ma" in let mb := fresh "mb" in
  destruct (srel_Some_r _ _ _ _ _ S Ha) as (ma & Hma & Tya & Ra);
  destruct (srel_Some_r _ _ _ _ _ S Hb) as (mb & Hmb & Tyb & Rb).

Lemma run_add w ac sl i g ag id : srel (w_comps w) ac sl -> w_groups w !! i = Some g -> gok (w_comps w) g ag ->
  exists cs' g', run_group_at i (full_add id) (part_add id) (non_add id) w =
      (Ret tt, set_groups (<[i := g']> (w_groups w)) (set_comps cs' w)) /\
    run_post (w_comps w) ac sl ag cs' g'
      (if both_has ac (ag_a ag) (ag_b ag) id then {[id]} ∪ ag_mem ag else ag_mem ag).
Proof.
  intros S Hi [St Ne (sa & sb & Ha & Hb & Hd)].
  two_storages S Ha Hb. unfold both_has. rewrite Hma, Hmb. simpl.
  destruct g as [d|d|d]; simpl in St, Hd; destruct St as (K & EA & EB); rewrite ?EA, ?EB in *.
  - destruct Ne as [?|Ne]; [congruence|].
    destruct (full_add_spec d _ _ _ id _ _ _ _ Ra Rb Hd) as (a' & b' & n' & E & Ra' & Rb' & Hok).
    rewrite (run_group_full w i d sa sb _ _ _ _ Hi Ha Hb Ne E). eexists _, _. split; [done|].
    cbn [gc_a gc_b gc_d]. split.
    + eapply srel_two; eauto.
    + intros t Ho. unfold ag_owns in Ho. rewrite K, EA, EB in Ho. apply orb_false_iff in Ho as [H1 H2].
      apply Nat.eqb_neq in H1, H2. by rewrite !lookup_insert_ne.
    + split; simpl; [done|rewrite EA, EB; by right|]. eexists _, _. rewrite EA, EB.
      rewrite lookup_insert_ne by done. rewrite !lookup_insert. split_and!; try done.
  - destruct Ne as [?|Ne]; [congruence|].
    destruct (part_add_spec d _ _ _ id _ _ _ _ Ra Rb Hd) as (a' & n' & E & Ra' & Hok).
    rewrite (run_group_part w i d sa sb _ _ _ _ Hi Ha Hb Ne E). eexists _, _. split; [done|].
    cbn [gc_a gc_b gc_d]. split.
    + eapply srel_insert_same; eauto.
    + intros t Ho. unfold ag_owns in Ho. rewrite K, EA in Ho.
      apply Nat.eqb_neq in Ho. by rewrite !lookup_insert_ne.
    + split; simpl; [done|rewrite EA, EB; by right|]. eexists _, sb. rewrite EA, EB.
      rewrite lookup_insert. rewrite lookup_insert_ne by done. split_and!; try done.
  - destruct (non_add_spec d _ _ _ _ id _ _ _ _ Ra Rb Hd) as (g' & E & Hok).
    rewrite (run_group_non w i d sa sb _ _ _ _ Hi Ha Hb E). eexists _, _. split; [done|].
    cbn [gc_a gc_b gc_d]. split; [done|done|].
    split; simpl; [done|by left|]. exists sa, sb. rewrite EA, EB. done.
Qed.

Lemma run_remove w ac sl i g ag id : srel (w_comps w) ac sl -> w_groups w !! i = Some g -> gok (w_comps w) g ag ->
  exists cs' g', run_group_at i (full_remove id) (part_remove id) (non_remove id) w =
      (Ret tt, set_groups (<[i := g']> (w_groups w)) (set_comps cs' w)) /\
    run_post (w_comps w) ac sl ag cs' g' (ag_mem ag ∖ {[id]}).
Proof.
  intros S Hi [St Ne (sa & sb & Ha & Hb & Hd)].
  two_storages S Ha Hb.
  destruct g as [d|d|d]; simpl in St, Hd; destruct St as (K & EA & EB); rewrite ?EA, ?EB in *.
  - destruct Ne as [?|Ne]; [congruence|].
    destruct (full_remove_spec d _ _ _ id _ _ _ _ Ra Rb Hd) as (a' & b' & n' & E & Ra' & Rb' & Hok).
    rewrite (run_group_full w i d sa sb _ _ _ _ Hi Ha Hb Ne E). eexists _, _. split; [done|].
    cbn [gc_a gc_b gc_d]. split.
    + eapply srel_two; eauto.
    + intros t Ho. unfold ag_owns in Ho. rewrite K, EA, EB in Ho. apply orb_false_iff in Ho as [H1 H2].
      apply Nat.eqb_neq in H1, H2. by rewrite !lookup_insert_ne.
    + split; simpl; [done|rewrite EA, EB; by right|]. eexists _, _. rewrite EA, EB.
      rewrite lookup_insert_ne by done. rewrite !lookup_insert. split_and!; try done.
  - destruct Ne as [?|Ne]; [congruence|].
    destruct (part_remove_spec d _ _ _ id _ _ _ _ Ra Rb Hd) as (a' & n' & E & Ra' & Hok).
    rewrite (run_group_part w i d sa sb _ _ _ _ Hi Ha Hb Ne E). eexists _, _. split; [done|].
    cbn [gc_a gc_b gc_d]. split.
    + eapply srel_insert_same; eauto.
    + intros t Ho. unfold ag_owns in Ho. rewrite K, EA in Ho.
      apply Nat.eqb_neq in Ho. by rewrite !lookup_insert_ne.
    + split; simpl; [done|rewrite EA, EB; by right|]. eexists _, sb. rewrite EA, EB.
      rewrite lookup_insert. rewrite lookup_insert_ne by done. split_and!; try done.
  - destruct (non_remove_spec d _ _ _ _ id _ _ _ _ Ra Rb Hd) as (g' & E & Hok).
    rewrite (run_group_non w i d sa sb _ _ _ _ Hi Ha Hb E). eexists _, _. split; [done|].
    cbn [gc_a gc_b gc_d]. split; [done|done|].
    split; simpl; [done|by left|]. exists sa, sb. rewrite EA, EB. done.
Qed.

(** make: only needs the two storages *)
Lemma run_make w ac sl i k a b : srel (w_comps w) ac sl ->
  w_groups w !! i = Some (new_group k a b) -> k = KNon \/ a <> b ->
  is_Some (ac !! a) -> is_Some (ac !! b) ->
  exists cs' g', run_group_at i full_make part_make non_make w =
      (Ret tt, set_groups (<[i := g']> (w_groups w)) (set_comps cs' w)) /\
    run_post (w_comps w) ac sl (AG k a b ∅ true) cs' g'
      (dom (default ∅ (ac !! a)) ∩ dom (default ∅ (ac !! b))).
Proof.
  intros S Hi Ne [ma Hma] [mb Hmb]. rewrite Hma, Hmb. simpl.
  destruct (srel_Some _ _ _ _ _ S Hma) as (sa & Ha & Tya & Ra).
  destruct (srel_Some _ _ _ _ _ S Hmb) as (sb & Hb & Tyb & Rb).
  destruct k; simpl in Hi.
  - destruct Ne as [?|Ne]; [congruence|].
    destruct (full_make_spec (FD 0 a b) _ _ _ _ _ _ Ra Rb) as (a' & b' & n' & E & Ra' & Rb' & Hok).
    rewrite (run_group_full w i (FD 0 a b) sa sb _ _ _ _ Hi Ha Hb Ne E). eexists _, _. split; [done|].
    cbn [gc_a gc_b gc_d fd_a fd_b]. split.
    + eapply srel_two; eauto.
    + intros t Ho. unfold ag_owns in Ho. simpl in Ho. apply orb_false_iff in Ho as [H1 H2].
      apply Nat.eqb_neq in H1, H2. by rewrite !lookup_insert_ne.
    + split; simpl; [done|auto|]. eexists _, _.
      rewrite lookup_insert_ne by done. rewrite !lookup_insert. split_and!; try done.
  - destruct Ne as [?|Ne]; [congruence|].
    destruct (part_make_spec (PD 0 a b) _ _ _ _ _ _ Ra Rb) as (a' & n' & E & Ra' & Hok).
    rewrite (run_group_part w i (PD 0 a b) sa sb _ _ _ _ Hi Ha Hb Ne E). eexists _, _. split; [done|].
    cbn [gc_a gc_b gc_d pd_a pd_b]. split.
    + eapply srel_insert_same; eauto.
    + intros t Ho. unfold ag_owns in Ho. simpl in Ho.
      apply Nat.eqb_neq in Ho. by rewrite !lookup_insert_ne.
    + split; simpl; [done|auto|]. eexists _, sb.
      rewrite lookup_insert. rewrite lookup_insert_ne by done. split_and!; try done.
  - destruct (non_make_spec (ND ss_new a b) _ _ _ _ _ _ Ra Rb) as (g' & E & Hok).
    rewrite (run_group_non w i (ND ss_new a b) sa sb _ _ _ _ Hi Ha Hb E). eexists _, _. split; [done|].
    cbn [gc_a gc_b gc_d]. split; [done|done|].
    split; simpl; [done|auto|]. exists sa, sb. done.
Qed.

(** ** Other groups while one group works *)

Record GI cs gs ac sl ags : Prop := {
  gi_srel : srel cs ac sl;
  gi_gok : Forall2 (gok cs) gs ags;
  gi_safe : safe ags
}.

Lemma run_post_other cs ac sl ag cs' g' mem' h agh : srel cs ac sl -> run_post cs ac sl ag cs' g' mem' ->
  gok cs h agh -> (forall t, ag_owns ag t = true -> ag_owns agh t = false) ->
  (ag_fresh agh = true -> ag_owns ag (ag_a agh) = false /\ ag_owns ag (ag_b agh) = false) ->
  gok cs' h agh.
Proof.
  intros S [S' Fr _] Hg Hd Hf. rewrite <- (agroup_eta agh).
  eapply gok_change; [done|done|]. intros t st Ht Hst.
  destruct (ag_owns ag t) eqn:Ho.
  - destruct (srel_Some_r _ _ _ _ _ S Hst) as (m & Hm & _ & Rt).
    destruct (srel_Some _ _ _ _ _ S' Hm) as (st' & Hst' & _ & Rt').
    exists st'. split; [done|]. split_and!.
    + rewrite Hd by done. done.
    + intros e _. rewrite (rep_elem _ _ _ _ Rt), (rep_elem _ _ _ _ Rt'). done.
    + intros Hx. destruct (Hf Hx) as [H1 H2]. unfold ag_types in Ht.
      apply orb_true_iff in Ht as [Ht|Ht]; apply Nat.eqb_eq in Ht; subst t; congruence.
  - exists st. rewrite Fr by done. done.
Qed.

Lemma static_upd ags i ag mem' : ags !! i = Some ag ->
  Forall2 ag_static ags (<[i := AG (ag_kind ag) (ag_a ag) (ag_b ag) mem' (ag_fresh ag)]> ags).
Proof.
  intros Hi. apply Forall2_same_length_lookup. split; [by rewrite insert_length|].
  intros j x y Hx Hy. destruct (decide (i = j)) as [->|Hne].
  - rewrite list_lookup_insert in Hy by (by eapply lookup_lt_Some). injection Hy as <-.
    assert (x = ag) as -> by congruence. done.
  - rewrite list_lookup_insert_ne in Hy by done. assert (x = y) as -> by congruence. done.
Qed.

Lemma GI_step cs gs ac sl ags i ag cs' g' mem' : GI cs gs ac sl ags -> ags !! i = Some ag ->
  run_post cs ac sl ag cs' g' mem' ->
  (forall j h, j <> i -> ags !! j = Some h -> ag_fresh h = true ->
      ag_owns ag (ag_a h) = false /\ ag_owns ag (ag_b h) = false) ->
  GI cs' (<[i := g']> gs) ac sl (<[i := AG (ag_kind ag) (ag_a ag) (ag_b ag) mem' (ag_fresh ag)]> ags).
Proof.
  intros [S G Sf] Hi P Hf. split.
  - apply P.
  - apply Forall2_same_length_lookup. split.
    { rewrite !insert_length. by eapply Forall2_length. }
    intros j x y Hx Hy. destruct (decide (i = j)) as [->|Hne].
    + rewrite list_lookup_insert in Hy by (by eapply lookup_lt_Some). injection Hy as <-.
      rewrite list_lookup_insert in Hx.
      2:{ rewrite (Forall2_length _ _ _ G). by eapply lookup_lt_Some. }
      injection Hx as <-. apply P.
    + rewrite list_lookup_insert_ne in Hx by done. rewrite list_lookup_insert_ne in Hy by done.
      eapply run_post_other; [done|done| | |].
      * by eapply (Forall2_lookup_lr _ _ _ _ _ _ G).
      * intros t Ho. eapply (safe_disj ags i j); eauto.
      * intros Hx'. eapply Hf; eauto.
  - eapply safe_static; [|done]. by apply static_upd.
Qed.

(** Running the same method on a list of groups. *)
Definition upd_at (L : list nat) (u : agroup -> gset nat) (ags : list agroup) : list agroup :=
  imap (fun j g => if decide (j ∈ L) then AG (ag_kind g) (ag_a g) (ag_b g) (u g) (ag_fresh g) else g) ags.

Lemma imap_Some {A B} (f : nat -> A -> B) l i x : l !! i = Some x -> imap f l !! i = Some (f i x).
Proof. intros H. rewrite list_lookup_imap, H. done. Qed.
Lemma imap_None {A B} (f : nat -> A -> B) l i : l !! i = None -> imap f l !! i = None.
Proof. intros H. rewrite list_lookup_imap, H. done. Qed.
Lemma upd_at_nil u ags : upd_at [] u ags = ags.
Proof.
  apply list_eq. intros j. unfold upd_at. destruct (ags !! j) eqn:E.
  - rewrite (imap_Some _ _ _ _ E). done.
  - by rewrite (imap_None _ _ _ E).
Qed.
Lemma upd_at_cons i L u ags ag : NoDup (i :: L) -> ags !! i = Some ag ->
  upd_at L u (<[i := AG (ag_kind ag) (ag_a ag) (ag_b ag) (u ag) (ag_fresh ag)]> ags) = upd_at (i :: L) u ags.
Proof.
  intros ND Hi. apply NoDup_cons in ND as [Hn ND]. apply list_eq. intros j.
  unfold upd_at. destruct (decide (i = j)) as [->|Hne].
  - erewrite imap_Some by (apply list_lookup_insert; by eapply lookup_lt_Some).
    rewrite (imap_Some _ _ _ _ Hi). f_equal.
    rewrite decide_False by done. by rewrite decide_True by left.
  - destruct (ags !! j) as [x|] eqn:E.
    2:{ rewrite !imap_None; [done|done|]. by rewrite list_lookup_insert_ne. }
    erewrite imap_Some by (rewrite list_lookup_insert_ne by done; exact E).
    rewrite (imap_Some _ _ _ _ E). f_equal. destruct (decide (j ∈ L)).
    + by rewrite decide_True by (by right).
    + rewrite decide_False; [done|]. intros Hj. apply elem_of_cons in Hj as [->|]; done.
Qed.

Lemma set_groups_comps w gs cs gs' cs' :
  set_groups gs' (set_comps cs' (set_groups gs (set_comps cs w))) = set_groups gs' (set_comps cs' w).
Proof. done. Qed.
Lemma set_groups_comps_id w : set_groups (w_groups w) (set_comps (w_comps w) w) = w.
Proof. by destruct w. Qed.

Lemma for_each_run (f : nat -> M world unit) (u : agroup -> gset nat) ac sl L w ags :
  GI (w_comps w) (w_groups w) ac sl ags -> NoDup L ->
  (forall i, i ∈ L -> i < length ags) ->
  (forall i j g h, i ∈ L -> i <> j -> ags !! i = Some g -> ags !! j = Some h -> ag_fresh h = true ->
      ag_owns g (ag_a h) = false /\ ag_owns g (ag_b h) = false) ->
  (forall i w g ag, i ∈ L -> srel (w_comps w) ac sl -> w_groups w !! i = Some g -> gok (w_comps w) g ag ->
     exists cs' g', f i w = (Ret tt, set_groups (<[i := g']> (w_groups w)) (set_comps cs' w)) /\
       run_post (w_comps w) ac sl ag cs' g' (u ag)) ->
  exists cs' gs', for_each L f w = (Ret tt, set_groups gs' (set_comps cs' w)) /\
    GI cs' gs' ac sl (upd_at L u ags).
Proof.
  intros H ND Hlt Hfr Hf. revert w ags H Hlt Hfr. induction L as [|i L IH]; intros w ags H Hlt Hfr.
  - exists (w_comps w), (w_groups w). simpl. rewrite set_groups_comps_id, upd_at_nil. done.
  - destruct (lookup_lt_is_Some_2 ags i) as [ag Hi]; [apply Hlt; left|].
    destruct (Forall2_lookup_r _ _ _ _ _ (gi_gok _ _ _ _ _ H) Hi) as (g & Hg & Hok).
    destruct (Hf i w g ag) as (cs1 & g1 & E1 & P1); [left|apply H|done|done|].
    cbn [for_each]. rewrite (bind_ret _ _ _ _ _ E1).
    assert (GI cs1 (<[i:=g1]> (w_groups w)) ac sl
       (<[i := AG (ag_kind ag) (ag_a ag) (ag_b ag) (u ag) (ag_fresh ag)]> ags)) as H1.
    { eapply GI_step; [done|done|done|]. intros j h Hj Hh Hx. eapply (Hfr i j); eauto. left. }
    apply NoDup_cons in ND as ND'. destruct ND' as [Hnin ND'].
    destruct (IH ND') with (w := set_groups (<[i := g1]> (w_groups w)) (set_comps cs1 w))
      (ags := <[i := AG (ag_kind ag) (ag_a ag) (ag_b ag) (u ag) (ag_fresh ag)]> ags) as (cs2 & gs2 & E2 & H2).
    + intros j w' g' ag' Hj. apply Hf. by right.
    + done.
    + intros j Hj. rewrite insert_length. apply Hlt. by right.
    + intros k j g' h Hk Hkj Hg' Hh Hx.
      destruct (Forall2_lookup_r _ _ _ _ _ (static_upd ags i ag (u ag) Hi) Hg') as (g0 & Hg0 & Sg).
      destruct (Forall2_lookup_r _ _ _ _ _ (static_upd ags i ag (u ag) Hi) Hh) as (h0 & Hh0 & Sh).
      assert (ag_fresh h0 = true) as Hx0.
      { destruct (decide (i = j)) as [->|].
        - rewrite list_lookup_insert in Hh by (by eapply lookup_lt_Some). injection Hh as <-.
          assert (h0 = ag) as -> by congruence. done.
        - rewrite list_lookup_insert_ne in Hh by done. congruence. }
      rewrite <- !(static_owns _ _ _ Sg). destruct Sh as (_ & <- & <-).
      apply (Hfr k j g0 h0); [by right|done..].
    + exists cs2, gs2. rewrite E2. split; [done|]. by rewrite <- (upd_at_cons i L u ags ag).
Qed.

(** which groups have a type *)
Lemma groups_with_spec gs t k i : i ∈ groups_with t gs k <->
  exists j g, i = k + j /\ gs !! j = Some g /\ ((g_types g).1 =? t) || ((g_types g).2 =? t) = true.
Proof.
  revert k. induction gs as [|g gs IH]; intros k; simpl.
  - rewrite elem_of_nil. split; [done|]. intros (j & g & _ & H & _). done.
  - destruct (g_types g) as [a b] eqn:Eg.
    assert (i ∈ groups_with t gs (S k) <-> exists j g0, i = k + S j /\ gs !! j = Some g0 /\
      ((g_types g0).1 =? t) || ((g_types g0).2 =? t) = true) as IH'.
    { rewrite IH. split; intros (j & g0 & -> & H); exists j, g0; (split; [lia|done]). }
    destruct ((a =? t) || (b =? t)) eqn:E.
    + rewrite elem_of_cons, IH'. split.
      * intros [->|(j & g0 & -> & H)]; [exists 0, g; rewrite Eg; split; [lia|done]|exists (S j), g0; done].
      * intros ([|j] & g0 & -> & H1 & H2); [left; lia|right]. eauto.
    + rewrite IH'. split.
      * intros (j & g0 & -> & H). exists (S j), g0; done.
      * intros ([|j] & g0 & -> & H1 & H2); [|eauto]. injection H1 as <-. rewrite Eg in H2. simpl in H2. congruence.
Qed.
Lemma groups_with_nodup gs t k : NoDup (groups_with t gs k).
Proof.
  revert k. induction gs as [|g gs IH]; intros k; simpl; [constructor|].
  destruct (g_types g) as [a b]. destruct (_ || _); [|done].
  constructor; [|done]. rewrite groups_with_spec. intros (j & g0 & H & _). lia.
Qed.
Lemma gstat_types g ag : gstat g ag -> g_types g = (ag_a ag, ag_b ag).
Proof. destruct g; simpl; intros (_ & -> & ->); done. Qed.
Lemma groups_with_elem cs gs ags t i ag : Forall2 (gok cs) gs ags -> ags !! i = Some ag ->
  i ∈ groups_with t gs 0 <-> ag_types ag t = true.
Proof.
  intros F Hi. rewrite groups_with_spec.
  destruct (Forall2_lookup_r _ _ _ _ _ F Hi) as (g & Hg & Hok).
  pose proof (gstat_types _ _ (gok_stat _ _ _ Hok)) as Et. unfold ag_types. split.
  - intros (j & g' & -> & Hg' & H). simpl in *. assert (g' = g) as -> by congruence. by rewrite Et in H.
  - intros H. exists i, g. by rewrite Et.
Qed.
Lemma groups_with_lt cs gs ags t i : Forall2 (gok cs) gs ags -> i ∈ groups_with t gs 0 -> i < length ags.
Proof.
  intros F H. apply groups_with_spec in H as (j & g & -> & Hg & _). simpl.
  rewrite <- (Forall2_length _ _ _ F). by eapply lookup_lt_Some.
Qed.

End world.
Arguments srel {V}.

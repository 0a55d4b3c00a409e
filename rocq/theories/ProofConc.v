(** The invariant of shared worlds: every thread only releases guards it has,
    and every piece of work touches only what is locked. *)
From stdpp Require Import prelude list gmap.
From Verif Require Import Base Api ModelSparse ModelEntity ModelGroup ModelWorld ModelQuery ModelStep ModelConc SpecConc
  Spec History ProofSparse ProofWorld ProofWf.

(** ** Lists of guards *)
Lemma drop_hold_perm l x h : (l, x) ∈ h -> (l, x) :: drop_hold l x h ≡ₚ h.
Proof.
  induction h as [|y h IH]; [by intros ?%elem_of_nil|]. simpl. destruct (decide (y = (l, x))) as [->|Hne]; [done|].
  intros [?|H]%elem_of_cons; [congruence|]. rewrite <- (IH H) at 2. apply Permutation_swap.
Qed.
Lemma drop_hold_head l x h : drop_hold l x ((l, x) :: h) = h.
Proof. simpl. by destruct (decide _). Qed.
Lemma drop_hold_equiv l x h h' : (l, x) ∈ h -> h ≡ₚ h' -> drop_hold l x h ≡ₚ drop_hold l x h'.
Proof.
  intros Hin HP. assert ((l, x) ∈ h') as Hin' by (by rewrite <- HP).
  apply (Permutation_cons_inv (a := (l, x))). by rewrite !drop_hold_perm.
Qed.
Lemma drop_hold_cons l x h m : h ≡ₚ (l, x) :: m -> drop_hold l x h ≡ₚ m.
Proof.
  intros HP. rewrite (drop_hold_equiv l x h ((l, x) :: m)); [by rewrite drop_hold_head|rewrite HP; left|done].
Qed.
Lemma drop_hold_app l x h h0 : (l, x) ∈ h -> drop_hold l x (h ++ h0) = drop_hold l x h ++ h0.
Proof.
  induction h as [|y h IH]; [by intros ?%elem_of_nil|]. simpl. destruct (decide (y = (l, x))) as [->|Hne]; [done|].
  intros [?|H]%elem_of_cons; [congruence|]. by rewrite IH.
Qed.
Lemma drop_hold_subset l x h y : y ∈ drop_hold l x h -> y ∈ h.
Proof.
  induction h as [|z h IH]; [done|]. simpl. destruct (decide _); [by right|]. intros [->|H]%elem_of_cons; [left|right; auto].
Qed.
Lemma conflict_true h l x : conflict h l x = true <-> exists y, (l, y) ∈ h /\ (y || x) = true.
Proof.
  unfold conflict. rewrite existsb_exists. split.
  - intros ([l' y] & Hin & H). apply andb_true_iff in H as [H1 H2]. apply bool_decide_eq_true in H1. simpl in *. subst.
    exists y. split; [by apply elem_of_list_In|done].
  - intros (y & Hin & H). exists (l, y). split; [by apply elem_of_list_In|]. simpl. rewrite H. by rewrite bool_decide_eq_true_2.
Qed.
Lemma conflict_perm h h' l x : h ≡ₚ h' -> conflict h l x = conflict h' l x.
Proof.
  intros HP. destruct (conflict h' l x) eqn:E.
  - apply conflict_true in E as (y & H & ?). apply conflict_true. exists y. by rewrite HP.
  - apply not_true_iff_false. rewrite <- not_true_iff_false in E. contradict E.
    apply conflict_true in E as (y & H & ?). apply conflict_true. exists y. by rewrite <- HP.
Qed.

Section conc.
Context {V : Type}.
Implicit Types (w : world V) (h : list (lock * bool)).

Definition agree h w w' : Prop := same_shape w w' /\ forall l x, (l, x) ∈ h -> part_eq l w w'.

Lemma part_refl l w : part_eq l w w.
Proof. by destruct l. Qed.
Lemma part_sym l w w' : part_eq l w w' -> part_eq l w' w.
Proof. by destruct l. Qed.
Lemma part_trans l w1 w2 w3 : part_eq l w1 w2 -> part_eq l w2 w3 -> part_eq l w1 w3.
Proof. destruct l; simpl; congruence. Qed.
Lemma shape_refl w : same_shape w w.
Proof. by split. Qed.
Lemma shape_sym w w' : same_shape w w' -> same_shape w' w.
Proof. intros [A B C]. by split. Qed.
Lemma shape_trans w1 w2 w3 : same_shape w1 w2 -> same_shape w2 w3 -> same_shape w1 w3.
Proof. intros [A B C] [D E F]. split; intros; etrans; eauto. Qed.
Lemma agree_sub h h' w w' : (forall y, y ∈ h -> y ∈ h') -> agree h' w w' -> agree h w w'.
Proof. intros H [H1 H2]. split; [done|]. eauto. Qed.
Lemma agree_sym h w w' : agree h w w' -> agree h w' w.
Proof. intros [H1 H2]. split; [by apply shape_sym|]. intros l x Hl. eapply part_sym, H2, Hl. Qed.
Lemma shape_reg w w' t : same_shape w w' -> is_Some (w_comps w !! t) <-> is_Some (w_comps w' !! t).
Proof. intros H. by rewrite <- (fmap_is_Some st_ty (w_comps w !! t)), (sh_comps _ _ H), fmap_is_Some. Qed.
Lemma shape_has w w' t : same_shape w w' -> has_registered t w = has_registered t w'.
Proof. intros H. unfold has_registered. apply bool_decide_ext. by apply shape_reg. Qed.
Lemma shape_len w w' : same_shape w w' -> n_groups w = n_groups w'.
Proof.
  assert (forall w w', same_shape w w' -> length (w_groups w) <= length (w_groups w')) as H.
  { intros u u' H. destruct (decide (length (w_groups u) <= length (w_groups u'))) as [|Hn]; [done|exfalso].
    pose proof (sh_groups _ _ H (length (w_groups u'))) as E. unfold group_head in E.
    rewrite (lookup_ge_None_2 (w_groups u')) in E by lia.
    destruct (lookup_lt_is_Some_2 (w_groups u) (length (w_groups u'))) as [g Hg]; [lia|]. rewrite Hg in E. by destruct g. }
  intros Hs. unfold n_groups. apply Nat.le_antisymm; apply H; [done|by apply shape_sym].
Qed.

(** [m] stays within the locks [h]: it changes only what is locked for
    writing, and what it does depends only on what is locked. *)
Definition confined (w0 : world V) h {B} (m : M (world V) B) : Prop :=
  forall w, same_shape w0 w ->
    same_shape w (m w).2 /\
    (forall l, (l, true) ∉ h -> part_eq l w (m w).2) /\
    (forall w', agree h w w' -> (m w').1 = (m w).1 /\ forall l x, (l, x) ∈ h -> part_eq l (m w).2 (m w').2).

Lemma confined_sub w0 h h' {B} (m : M (world V) B) : (forall y, y ∈ h -> y ∈ h') -> confined w0 h m -> confined w0 h' m.
Proof.
  intros Hs H w Hw. destruct (H w Hw) as (H1 & H2 & H3). split; [done|]. split.
  - intros l Hl. apply H2. naive_solver.
  - intros w' Ha. destruct (H3 w' (agree_sub _ _ _ _ Hs Ha)) as [H4 H5]. split; [done|].
    intros l x Hl. destruct (decide ((l, x) ∈ h)) as [|Hn]; [eauto|].
    destruct (decide ((l, true) ∈ h)) as [|Hn']; [eauto|].
    eapply part_trans; [eapply part_sym, (H2 l Hn')|].
    eapply part_trans; [eapply (proj2 Ha), Hl|].
    assert (same_shape w0 w') as Hw' by (eapply shape_trans; [exact Hw|apply Ha]).
    by apply (H w' Hw').
Qed.

Lemma confined_pure w0 h {B} (m : M (world V) B) : (forall w, (m w).2 = w) ->
  (forall w w', same_shape w0 w -> agree h w w' -> (m w).1 = (m w').1) -> confined w0 h m.
Proof.
  intros Hm H w Hw. rewrite Hm. split; [apply shape_refl|]. split; [intros; apply part_refl|].
  intros w' Ha. rewrite Hm. split; [symmetry; by apply H|]. apply Ha.
Qed.
Lemma confined_on_em w0 h {B} (m : M em B) : (LMan, true) ∈ h -> confined w0 h (on_em m).
Proof.
  intros Hl w _. unfold on_em. destruct (m (w_em w)) as [o e] eqn:E. simpl. split; [by split|]. split.
  - intros [|i|t|r] Hn; try done.
  - intros w' [Hs Ha]. rewrite <- (Ha LMan true Hl), E. simpl. split; [done|].
    intros [|i|t|r] x Hin; simpl; [done|exact (Ha _ _ Hin)..].
Qed.
Lemma shape_comp w t st s : w_comps w !! t = Some st ->
  same_shape w (set_comps (<[t := St (st_ty st) s]> (w_comps w)) w).
Proof.
  intros E. split; [|done|done]. intros u. simpl. destruct (decide (u = t)) as [->|].
  - rewrite lookup_insert, E. done.
  - by rewrite lookup_insert_ne.
Qed.
Lemma part_comp l w w' t st st' : w_comps w !! t = Some st -> w_comps w' !! t = Some st -> part_eq l w w' ->
  part_eq l (set_comps (<[t := st']> (w_comps w)) w) (set_comps (<[t := st']> (w_comps w')) w').
Proof.
  intros E E' H. destruct l as [|i|u|r]; simpl in *; try done.
  destruct (decide (u = t)) as [->|]; [by rewrite !lookup_insert|by rewrite !lookup_insert_ne].
Qed.
Lemma part_comp_ne l w t st' : l <> LStore t -> part_eq l w (set_comps (<[t := st']> (w_comps w)) w).
Proof. intros H. destruct l as [|i|u|r]; simpl in *; try done. rewrite lookup_insert_ne; congruence. Qed.
Lemma confined_storage_mut w0 h t {B} (m : M (sset V) B) : (LStore t, true) ∈ h -> confined w0 h (storage_mut t m).
Proof.
  intros Hl w _. unfold storage_mut. destruct (w_comps w !! t) as [st|] eqn:E.
  - destruct (st_ty st =? t) eqn:Et.
    + destruct (m (st_set st)) as [o s] eqn:Em. simpl. split; [by apply shape_comp|]. split.
      * intros l Hn. apply part_comp_ne. congruence.
      * intros w' [Hs Ha]. pose proof (Ha _ _ Hl) as E'. simpl in E'. rewrite E in E'. rewrite <- E', Et, Em. simpl. split; [done|].
        intros l x Hin. eapply part_comp; [done|done|by eapply Ha].
    + simpl. split; [apply shape_refl|]. split; [intros; apply part_refl|].
      intros w' [Hs Ha]. pose proof (Ha _ _ Hl) as E'. simpl in E'. rewrite E in E'. rewrite <- E', Et. done.
  - simpl. split; [apply shape_refl|]. split; [intros; apply part_refl|].
    intros w' [Hs Ha]. pose proof (Ha _ _ Hl) as E'. simpl in E'. rewrite E in E'. rewrite <- E'. done.
Qed.
Lemma confined_dyn_mut w0 h t {B} (m : M (sset V) B) : (LStore t, true) ∈ h -> confined w0 h (dyn_mut t m).
Proof.
  intros Hl w _. unfold dyn_mut. destruct (w_comps w !! t) as [st|] eqn:E.
  - destruct (m (st_set st)) as [o s] eqn:Em. simpl. split; [by apply shape_comp|]. split.
    * intros l Hn. apply part_comp_ne. congruence.
    * intros w' [Hs Ha]. pose proof (Ha _ _ Hl) as E'. simpl in E'. rewrite E in E'. rewrite <- E', Em. simpl. split; [done|].
      intros l x Hin. eapply part_comp; [done|done|by eapply Ha].
  - simpl. split; [apply shape_refl|]. split; [intros; apply part_refl|].
    intros w' [Hs Ha]. pose proof (Ha _ _ Hl) as E'. simpl in E'. rewrite E in E'. rewrite <- E'. done.
Qed.
(** the modes in which a group's storages are locked *)
Definition mode_a (k : gkind) : bool := match k with KFull | KPart => true | KNon => false end.
Definition mode_b (k : gkind) : bool := match k with KFull => true | _ => false end.
Definition same_types_d {D} (ty : D -> tid * tid) (m : M (gctx V D) unit) : Prop :=
  forall c, ty (gc_d (m c).2) = ty (gc_d c).
Definition fty (d : full_data) := (fd_a d, fd_b d).
Definition pty (d : part_data) := (pd_a d, pd_b d).
Definition nty (d : non_data) := (nd_a d, nd_b d).

Lemma part_group l w w' i g : part_eq l w w' -> length (w_groups w) = length (w_groups w') ->
  part_eq l (set_groups (<[i := g]> (w_groups w)) w) (set_groups (<[i := g]> (w_groups w')) w').
Proof.
  intros H HL. destruct l as [|j|u|r]; simpl in *; try done.
  destruct (decide (i = j)) as [->|]; [|by rewrite !list_lookup_insert_ne].
  destruct (decide (j < length (w_groups w))).
  - rewrite !list_lookup_insert; [done|lia|lia].
  - rewrite !list_insert_ge by lia. done.
Qed.
Lemma part_group_ne l w i g : l <> LGroup i -> part_eq l w (set_groups (<[i := g]> (w_groups w)) w).
Proof. intros H. destruct l as [|j|u|r]; simpl in *; try done. rewrite list_lookup_insert_ne; congruence. Qed.
Lemma shape_group w i g g' : w_groups w !! i = Some g ->
  group_head i w = group_head i (set_groups (<[i := g']> (w_groups w)) w) ->
  same_shape w (set_groups (<[i := g']> (w_groups w)) w).
Proof.
  intros E H. split; [done| |done]. intros j. destruct (decide (i = j)) as [<-|]; [done|].
  unfold group_head. simpl. by rewrite list_lookup_insert_ne.
Qed.
Lemma lookup_insert_len {A} (l : list A) i x y : l !! i = Some x -> <[i := y]> l !! i = Some y.
Proof. intros H. apply list_lookup_insert. by eapply lookup_lt_Some. Qed.
Lemma confined_run_group w0 h i k a b ff fp fn :
  group_head i w0 = Some (k, a, b) ->
  (LGroup i, true) ∈ h -> (LStore a, mode_a k) ∈ h -> (LStore b, mode_b k) ∈ h ->
  same_types_d fty ff -> same_types_d pty fp -> same_types_d nty fn ->
  confined w0 h (run_group_at i ff fp fn).
Proof.
  intros Hh Hg HA HB Ff Fp Fn w Hw. rewrite (sh_groups _ _ Hw) in Hh.
  assert (forall w', agree h w w' -> w_groups w !! i = w_groups w' !! i /\ w_comps w !! a = w_comps w' !! a /\ w_comps w !! b = w_comps w' !! b
    /\ length (w_groups w) = length (w_groups w')) as HE.
  { intros w' [Hs Ha]. split; [exact (Ha _ _ Hg)|]. split; [exact (Ha _ _ HA)|]. split; [exact (Ha _ _ HB)|]. exact (shape_len _ _ Hs). }
  unfold group_head in Hh. unfold run_group_at. destruct (w_groups w !! i) as [[d|d|d]|] eqn:Ei; [..|done]; injection Hh as <- <- <-;
    cbn [mode_a mode_b] in HA, HB.
  - destruct (w_comps w !! fd_a d) as [sa|] eqn:Ea; [destruct (fd_a d =? fd_b d) eqn:Eab; [|destruct (w_comps w !! fd_b d) as [sb|] eqn:Eb]|].
    2:{ apply Nat.eqb_neq in Eab as Hne. specialize (Ff (GC d (st_set sa) (st_set sb))).
        destruct (ff _) as [o c] eqn:Ef. cbn [fst snd gc_d] in *. unfold fty in Ff.
        split; [|split].
        - eapply shape_trans; [eapply shape_comp, Ea|]. eapply shape_trans.
          { eapply (shape_comp (set_comps _ w) (fd_b d) sb (gc_b c)). simpl. by rewrite lookup_insert_ne. }
          eapply (shape_group (set_comps _ w)); [exact Ei|]. unfold group_head. simpl. rewrite (lookup_insert_len _ _ _ _ Ei), Ei.
          injection Ff as -> ->. done.
        - intros l Hl. eapply part_trans; [|apply (part_group_ne l (set_comps _ w)); congruence].
          eapply part_trans; [apply (part_comp_ne l w (fd_a d) (St (st_ty sa) (gc_a c))); congruence|].
          apply (part_comp_ne l (set_comps _ w)); congruence.
        - intros w' Ha. destruct (HE w' Ha) as (E1 & E2 & E3 & E4). rewrite <- E1, <- E2, ?Eab, <- E3, Ef. simpl. split; [done|].
          intros l x Hl. apply (part_group l (set_comps _ w) (set_comps _ w')); [|done].
          set (ca := St (st_ty sa) (gc_a c)).
          refine (part_comp l (set_comps (<[fd_a d := ca]> (w_comps w)) w) (set_comps (<[fd_a d := ca]> (w_comps w')) w') (fd_b d) sb
             (St (st_ty sb) (gc_b c)) _ _ _).
          + simpl. by rewrite lookup_insert_ne.
          + simpl. rewrite lookup_insert_ne by done. done.
          + eapply part_comp; [done|by rewrite <- E2|by eapply Ha]. }
    all: split; [apply shape_refl|split; [intros; apply part_refl|]]; intros w' Ha; destruct (HE w' Ha) as (E1 & E2 & E3 & E4);
      rewrite <- E1, <- E2, ?Eab, <- ?E3; split; [done|apply Ha].
  - destruct (w_comps w !! pd_a d) as [sa|] eqn:Ea; [destruct (pd_a d =? pd_b d) eqn:Eab; [|destruct (w_comps w !! pd_b d) as [sb|] eqn:Eb]|].
    2:{ specialize (Fp (GC d (st_set sa) (st_set sb))).
        destruct (fp _) as [o c] eqn:Ef. cbn [fst snd gc_d] in *. unfold pty in Fp.
        split; [|split].
        - eapply shape_trans; [eapply shape_comp, Ea|].
          eapply (shape_group (set_comps _ w)); [exact Ei|]. unfold group_head. simpl. rewrite (lookup_insert_len _ _ _ _ Ei), Ei.
          injection Fp as -> ->. done.
        - intros l Hl. eapply part_trans; [|apply (part_group_ne l (set_comps _ w)); congruence].
          apply (part_comp_ne l w (pd_a d) (St (st_ty sa) (gc_a c))); congruence.
        - intros w' Ha. destruct (HE w' Ha) as (E1 & E2 & E3 & E4). rewrite <- E1, <- E2, ?Eab, <- E3, Ef. simpl. split; [done|].
          intros l x Hl. apply (part_group l (set_comps _ w) (set_comps _ w')); [|done].
          eapply part_comp; [done|by rewrite <- E2|by eapply Ha]. }
    all: split; [apply shape_refl|split; [intros; apply part_refl|]]; intros w' Ha; destruct (HE w' Ha) as (E1 & E2 & E3 & E4);
      rewrite <- E1, <- E2, ?Eab, <- ?E3; split; [done|apply Ha].
  - destruct (w_comps w !! nd_a d) as [sa|] eqn:Ea; [destruct (w_comps w !! nd_b d) as [sb|] eqn:Eb|].
    1:{ specialize (Fn (GC d (st_set sa) (st_set sb))).
        destruct (fn _) as [o c] eqn:Ef. cbn [fst snd gc_d] in *. unfold nty in Fn.
        split; [|split].
        - eapply shape_group; [exact Ei|]. unfold group_head. simpl. rewrite (lookup_insert_len _ _ _ _ Ei), Ei.
          injection Fn as -> ->. done.
        - intros l Hl. apply part_group_ne; congruence.
        - intros w' Ha. destruct (HE w' Ha) as (E1 & E2 & E3 & E4). rewrite <- E1, <- E2, ?Eab, <- E3, Ef. simpl. split; [done|].
          intros l x Hl. apply part_group; [|done]. by eapply Ha. }
    all: split; [apply shape_refl|split; [intros; apply part_refl|]]; intros w' Ha; destruct (HE w' Ha) as (E1 & E2 & E3 & E4);
      rewrite <- E1, <- E2, <- ?E3; split; [done|apply Ha].
Qed.
End conc.

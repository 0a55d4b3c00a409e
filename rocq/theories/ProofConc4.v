(** Walking through programs: guards taken and given back, pieces of work
    within them, locks taken in order. *)
From stdpp Require Import prelude list gmap.
From Verif Require Import Base Api ModelSparse ModelEntity ModelGroup ModelWorld ModelQuery ModelStep ModelConc SpecConc
  Spec History ProofSparse ProofWorld ProofWf ProofTerm ProofConc ProofConc2 ProofConc3.

Section wp.
Context {V : Type}.
Implicit Types (w : world V) (h hs mine : list (lock * bool)).
(** the world at the start; the order in which locks are taken; whether the
    programs are to be free of undefined behaviour *)
Variables (w0 : world V) (lt : lock -> lock -> Prop) (pl : Prop).

(** the world a piece of work leaves *)
Definition effect (lab : label V) w : world V :=
  match lab with
  | BRead | BWrite => w
  | BSet o => (step o w).2
  | BNew => (on_em em_allocate w).2
  | BAlloc n => (on_em (em_allocate_n n) w).2
  | BFree id => (on_em (em_remove id) w).2
  | BPut t id v => (storage_mut t (ss_add id v) w).2
  | BBatch t lo hi vs => (storage_mut t (ss_add_batch (seq lo (hi - lo)) vs) w).2
  | BTake t id => (storage_mut t (ss_remove id) w).2
  | BDrop t id => (dyn_mut t (cs_remove id) w).2
  | BAdd i id => (run_group_at i (full_add id) (part_add id) (non_add id) w).2
  | BLeave i id => (run_group_at i (full_remove id) (part_remove id) (non_remove id) w).2
  | BKill i id => (run_group_at i
      (full_remove id >>! on_a (cs_remove id) >>! on_b (cs_remove id))
      (part_remove id >>! on_a (cs_remove id))
      (non_remove id) w).2
  end.
(** values overwritten, nothing else *)
Definition rewritten w w' : Prop :=
  w_em w = w_em w' /\ w_groups w = w_groups w' /\
  (forall t, (fun st => (indices (st_set st), entities (st_set st))) <$> (w_comps w !! t) =
             (fun st => (indices (st_set st), entities (st_set st))) <$> (w_comps w' !! t)) /\
  (good w -> good w').
Definition moves (lab : label V) w w' : Prop :=
  match lab with BWrite => rewritten w w' | BSet o => rewritten w w' /\ w' = (step o w).2 | _ => w' = effect lab w end.
Definition piece h (lab : label V) {B} (f : M (world V) B) : Prop :=
  confined w0 h f /\ forall w, same_shape w0 w -> moves lab w (f w).2.
Definition inv w : Prop := same_shape w0 w /\ (pl -> good w).
Definition above h l : Prop := forall y, y ∈ h -> lt y.1 l.

(** [h0]: guards of the caller; [mine]: guards taken by the program; [pn]:
    may it panic. *)
Fixpoint wp (pn : Prop) h0 mine {A} (p : prog V A) (Q : A -> list (lock * bool) -> Prop) : Prop :=
  match p with
  | PRet a => exists m, m ≡ₚ mine /\ Q a m
  | PPanic => pn
  | PUB => ~ pl
  | PHang => exists l, lt l l
  | PAcq l x k => above (mine ++ h0) l /\ wp pn h0 ((l, x) :: mine) k Q
  | PRel l x k => (l, x) ∈ mine /\ wp pn h0 (drop_hold l x mine) k Q
  | PAct lab f k => piece (mine ++ h0) lab f /\
      forall w, inv w ->
        match (f w).1 with
        | Ret b => wp pn h0 mine (k b) Q
        | Panic => pn
        | UB => ~ pl
        | Block => exists l, lt l l
        end
  end.

Lemma above_perm h h' l : h ≡ₚ h' -> above h l -> above h' l.
Proof. intros HP H y Hy. apply H. by rewrite HP. Qed.
Lemma above_sub h h' l : (forall y, y ∈ h -> y ∈ h') -> above h' l -> above h l.
Proof. intros Hs H y Hy. auto. Qed.
Lemma piece_sub h h' lab {B} (f : M (world V) B) : (forall y, y ∈ h -> y ∈ h') -> piece h lab f -> piece h' lab f.
Proof. intros Hs [H1 H2]. split; [by eapply confined_sub|done]. Qed.
Lemma piece_perm h h' lab {B} (f : M (world V) B) : h ≡ₚ h' -> piece h lab f -> piece h' lab f.
Proof. intros HP. apply piece_sub. intros y. by rewrite HP. Qed.
Lemma wp_perm pn h0 mine mine' {A} (p : prog V A) Q : mine ≡ₚ mine' -> wp pn h0 mine p Q -> wp pn h0 mine' p Q.
Proof.
  revert mine mine'. induction p as [a| | | |l x k IH|l x k IH|B lab f k IH]; intros mine mine' HP; simpl; try done.
  - intros (m & Hm & HQ). exists m. split; [by etrans|done].
  - intros [H1 H2]. split; [eapply above_perm; [|exact H1]; by rewrite HP|]. eapply IH; [|exact H2]. by rewrite HP.
  - intros [H1 H2]. split; [by rewrite <- HP|]. eapply IH; [|exact H2]. by apply drop_hold_equiv.
  - intros [H1 H2]. split; [eapply piece_perm; [|exact H1]; by rewrite HP|]. intros w Hw. specialize (H2 w Hw).
    destruct ((f w).1); [|done..]. by eapply IH.
Qed.
Lemma wp_mono (pn pn' : Prop) h0 mine {A} (p : prog V A) (Q Q' : A -> list (lock * bool) -> Prop) : (pn -> pn') ->
  (forall a m, Q a m -> Q' a m) -> wp pn h0 mine p Q -> wp pn' h0 mine p Q'.
Proof.
  intros Hpn HQ. revert mine. induction p as [a| | | |l x k IH|l x k IH|B lab f k IH]; intros mine; simpl; try done.
  - intros (m & Hm & H). exists m. auto.
  - intros [H1 H2]. auto.
  - intros [H1 H2]. auto.
  - intros [H1 H2]. split; [done|]. intros w Hw. specialize (H2 w Hw). destruct ((f w).1); auto.
Qed.
Lemma wp_bind pn h0 mine {A B} (p : prog V A) (k : A -> prog V B) Q :
  wp pn h0 mine p (fun a m => wp pn h0 m (k a) Q) -> wp pn h0 mine (pbind p k) Q.
Proof.
  revert mine. induction p as [a| | | |l x kk IH|l x kk IH|C lab f kk IH]; intros mine; simpl; try done.
  - intros (m & Hm & H). eapply wp_perm; [|exact H]. done.
  - intros [H1 H2]. auto.
  - intros [H1 H2]. auto.
  - intros [H1 H2]. split; [done|]. intros w Hw. specialize (H2 w Hw). destruct ((f w).1); [|done..]. by apply IH.
Qed.
Lemma wp_ret pn h0 mine {A} (a : A) (Q : A -> list (lock * bool) -> Prop) : Q a mine -> wp pn h0 mine (PRet a) Q.
Proof. intros H. by exists mine. Qed.
Lemma wp_acq pn h0 mine l x (Q : unit -> list (lock * bool) -> Prop) : above (mine ++ h0) l -> Q tt ((l, x) :: mine) -> wp pn h0 mine (acq l x) Q.
Proof. intros H1 H2. split; [done|]. by apply wp_ret. Qed.
(** giving back a guard: [mine ≡ₚ (l,x) :: m] *)
Lemma wp_rel pn h0 mine m l x (Q : unit -> list (lock * bool) -> Prop) : mine ≡ₚ (l, x) :: m -> Q tt m -> wp pn h0 mine (rel l x) Q.
Proof.
  intros HP H. split; [rewrite HP; left|]. exists m. split; [|done]. symmetry. by apply drop_hold_cons.
Qed.
Lemma wp_act pn h0 mine {B} lab (f : M (world V) B) (Q : B -> list (lock * bool) -> Prop) : piece (mine ++ h0) lab f ->
  (forall w, inv w -> match (f w).1 with Ret b => Q b mine | Panic => pn | UB => ~ pl | Block => exists l, lt l l end) ->
  wp pn h0 mine (act lab f) Q.
Proof.
  intros H1 H2. split; [done|]. intros w Hw. specialize (H2 w Hw). destruct ((f w).1); [|done..]. by apply wp_ret.
Qed.
Lemma piece_read h {B} (m : M (world V) B) : (forall w, (m w).2 = w) ->
  (forall w w', same_shape w0 w -> agree h w w' -> (m w).1 = (m w').1) -> piece h BRead m.
Proof. intros H1 H2. split; [by apply confined_pure|]. intros w _. apply H1. Qed.
Lemma wp_look pn h0 mine {B} (f : world V -> B) (Q : B -> list (lock * bool) -> Prop) :
  (forall w w', same_shape w0 w -> agree (mine ++ h0) w w' -> f w = f w') ->
  (forall w, inv w -> Q (f w) mine) -> wp pn h0 mine (look f) Q.
Proof. intros H1 H2. apply wp_act; [|done]. apply piece_read; [done|]. intros. simpl. f_equal. auto. Qed.
(** reading what is fixed for the whole run *)
Lemma wp_look0 pn h0 mine {B} (f : world V -> B) (Q : B -> list (lock * bool) -> Prop) :
  (forall w w', same_shape w w' -> f w = f w') -> Q (f w0) mine -> wp pn h0 mine (look f) Q.
Proof.
  intros H1 H2. apply wp_look.
  - intros w w' _ [Hs _]. auto.
  - intros w [Hs _]. by rewrite <- (H1 w0 w).
Qed.
Lemma wp_ask pn h0 mine {B} (f : world V -> outcome B) (Q : B -> list (lock * bool) -> Prop) :
  (forall w w', same_shape w0 w -> agree (mine ++ h0) w w' -> f w = f w') ->
  (forall w, inv w -> match f w with Ret b => Q b mine | Panic => pn | UB => ~ pl | Block => exists l, lt l l end) ->
  wp pn h0 mine (ask f) Q.
Proof. intros H1 H2. apply wp_act; [|done]. by apply piece_read. Qed.
Lemma wp_passert (pn : Prop) h0 mine b (Q : unit -> list (lock * bool) -> Prop) : pn -> (b = true -> Q tt mine) -> wp pn h0 mine (passert b) Q.
Proof. intros Hp H. destruct b; [|done]. apply wp_ret. auto. Qed.
Lemma wp_punwrap (pn : Prop) h0 mine {A} (o : option A) (Q : A -> list (lock * bool) -> Prop) : pn -> (forall a, o = Some a -> Q a mine) -> wp pn h0 mine (punwrap o) Q.
Proof. intros Hp H. destruct o; [|done]. apply wp_ret. auto. Qed.
Lemma wp_rels pn h0 {A} (p : prog V A) hs mine mine' Q : mine ≡ₚ hs ++ mine' -> wp pn h0 mine' p Q -> wp pn h0 mine (rels hs p) Q.
Proof.
  revert mine. induction hs as [|[l x] hs IH]; intros mine HP H; simpl; [by eapply wp_perm|].
  split; [rewrite HP; left|]. apply IH; [|done]. by apply drop_hold_cons.
Qed.

(** Catching panics. *)
Lemma piece_try h lab {B} (f : M (world V) B) : piece h lab f ->
  piece h lab (fun w => match f w with (o, w') => (Ret o, w') end).
Proof.
  intros [H1 H2]. split.
  - intros w Hw. destruct (H1 w Hw) as (A & B' & C). specialize (H1 w Hw). destruct (f w) as [o w'] eqn:E. simpl in *.
    split; [done|]. split; [done|]. intros u Hu. destruct (C u Hu) as [E1 E2]. destruct (f u) as [o' u']. simpl in *. by subst.
  - intros w Hw. specialize (H2 w Hw). by destruct (f w).
Qed.
Lemma wp_catch h0 mine {A B} (p : prog V A) (k : outcome A -> list (lock * bool) -> prog V B) (Q : A -> list (lock * bool) -> Prop) QF :
  wp True h0 mine p Q ->
  (forall a m m', Q a m -> m' ≡ₚ m -> wp False [] (m' ++ h0) (k (Ret a) m') QF) ->
  wp False [] h0 (k Panic []) QF ->
  wp False [] (mine ++ h0) (catch mine p k) QF.
Proof.
  intros H HR HPn. revert mine H.
  assert (forall mine, wp False [] (mine ++ h0) (rels mine (k Panic [])) QF) as Hun.
  { intros mine. by eapply wp_rels. }
  induction p as [a| | | |l x kk IH|l x kk IH|C lab f kk IH]; intros mine; simpl.
  - intros (m & Hm & HQ). by eapply HR.
  - intros _. apply Hun.
  - done.
  - done.
  - intros [H1 H2]. rewrite app_nil_r. split; [done|]. by apply (IH ((l, x) :: mine)).
  - intros [H1 H2]. split; [apply elem_of_app; by left|]. rewrite drop_hold_app by done. by apply IH.
  - intros [H1 H2]. rewrite app_nil_r. split; [by apply piece_try|]. intros w Hw. specialize (H2 w Hw).
    destruct (f w) as [[b| | |] w']; simpl in *; auto.
Qed.
End wp.

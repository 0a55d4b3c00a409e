(** Calls acting at one instant. *)
From stdpp Require Import prelude list gmap.
From Verif Require Import Base Api ModelSparse ModelEntity ModelGroup ModelWorld ModelQuery ModelStep ModelConc SpecConc
  Spec History ProofSparse ProofEntity ProofWorld ProofWf ProofTerm ProofConc ProofConc2 ProofConc3 ProofConc4 ProofConc5 ProofConc6 ProofConc7 ProofConc8 ProofConc9 ProofConc10 ProofConc11.

Section lin.
Context {V : Type}.
Implicit Types (w u : world V) (h : list (lock * bool)) (ids : list nat).
Local Notation event := (op V * outcome (out V))%type.
(** a call on its way: it has not taken effect yet, or it has and will answer [r] *)
Inductive pend : Type := Todo (o : op V) | Took (r : outcome (out V)).
Implicit Types (cl : pend).
Variable (w0 : world V).

Definition em_ok w : Prop := exists n free, em_rel (w_em w) n free.
Definition okw w : Prop := same_shape w0 w /\ em_ok w.
Definition known ids w : Prop := forall id, id ∈ ids -> id ∈ ents (w_em w).
Definition pos ids h u w : Prop := okw w /\ known ids w /\ agree h u w.
Definition calm_label (lab : label V) : Prop := match lab with BRead | BNew | BAlloc _ | BPut _ _ _ | BTake _ _ | BWrite | BSet _ => True | _ => False end.

(** a call taking effect now *)
Inductive lin w : pend -> list event -> pend -> world V -> Prop :=
| lin_no cl : lin w cl [] cl w
| lin_do o r w' : step o w = (r, w') -> lin w (Todo o) [(o, r)] (Took r) w'.
(** calls changing nothing can take effect at any time *)
Inductive ghosts ids h u : pend -> list event -> pend -> Prop :=
| gh_nil cl : ghosts ids h u cl [] cl
| gh_cons o r l cl : (forall w, pos ids h u w -> step o w = (r, w)) ->
    ghosts ids h u (Took r) l cl -> ghosts ids h u (Todo o) ((o, r) :: l) cl.
Lemma ghosts_app ids h u cl l cl1 l1 cl2 : ghosts ids h u cl l cl1 -> ghosts ids h u cl1 l1 cl2 -> ghosts ids h u cl (l ++ l1) cl2.
Proof. induction 1; simpl; [done|]. intros H2. constructor; auto. Qed.

Definition post A : Type := outcome A -> pend -> list nat -> list (lock * bool) -> world V -> Prop.
Fixpoint lw0 {A} cl ids h u (p : prog V A) (Q : post A) : Prop :=
  match p with
  | PRet a => Q (Ret a) cl ids h u
  | PPanic => Q Panic cl ids h u
  | PUB => Q UB cl ids h u
  | PHang => Q Block cl ids h u
  | PAcq l x k => conflict h l x = false -> forall u', pos ids h u u' ->
      exists e cl', ghosts ids ((l, x) :: h) u' cl e cl' /\ lw0 cl' ids ((l, x) :: h) u' k Q
  | PRel l x k => exists e cl', ghosts ids (drop_hold l x h) u cl e cl' /\ lw0 cl' ids (drop_hold l x h) u k Q
  | PAct lab f k => calm_label lab /\ forall w, pos ids h u w ->
      exists e cl' ids', lin w cl e cl' (f w).2 /\ (okw (f w).2 -> known ids (f w).2 -> known ids' (f w).2) /\
      match (f w).1 with
      | Ret b => exists e' cl'', ghosts ids' h (f w).2 cl' e' cl'' /\ lw0 cl'' ids' h (f w).2 (k b) Q
      | Panic => Q Panic cl' ids' h (f w).2
      | UB => Q UB cl' ids' h (f w).2
      | Block => Q Block cl' ids' h (f w).2
      end
  end.
Definition lw {A} cl ids h u (p : prog V A) (Q : post A) : Prop :=
  exists e cl', ghosts ids h u cl e cl' /\ lw0 cl' ids h u p Q.
Lemma lw_now {A} cl ids h u (p : prog V A) (Q : post A) : lw0 cl ids h u p Q -> lw cl ids h u p Q.
Proof. intros H. exists [], cl. split; [constructor|done]. Qed.
Lemma lw_ghost {A} cl e cl' ids h u (p : prog V A) (Q : post A) : ghosts ids h u cl e cl' -> lw cl' ids h u p Q -> lw cl ids h u p Q.
Proof. intros H (e' & cl'' & H1 & H2). exists (e ++ e'), cl''. split; [by eapply ghosts_app|done]. Qed.

Lemma lw0_mono {A} cl ids h u (p : prog V A) (Q Q' : post A) :
  (forall r cl ids h u, Q r cl ids h u -> Q' r cl ids h u) -> lw0 cl ids h u p Q -> lw0 cl ids h u p Q'.
Proof.
  intros HQ. revert cl ids h u. induction p as [a| | | |l x k IH|l x k IH|B lab f k IH]; intros cl ids h u; simpl; auto.
  - intros H Hc u' Hu. destruct (H Hc u' Hu) as (e & cl' & H1 & H2). exists e, cl'. auto.
  - intros (e & cl' & H1 & H2). exists e, cl'. auto.
  - intros [Hl H]. split; [done|]. intros w Hw. destruct (H w Hw) as (e & cl' & ids' & H1 & H2 & H3). exists e, cl', ids'. split; [done|]. split; [done|].
    destruct ((f w).1); auto. destruct H3 as (e' & cl'' & H3 & H4). exists e', cl''. auto.
Qed.
Lemma lw_mono {A} cl ids h u (p : prog V A) (Q Q' : post A) :
  (forall r cl ids h u, Q r cl ids h u -> Q' r cl ids h u) -> lw cl ids h u p Q -> lw cl ids h u p Q'.
Proof. intros HQ (e & cl' & H1 & H2). exists e, cl'. split; [done|]. by eapply lw0_mono. Qed.

Definition pass {A B} (k : A -> pend -> list nat -> list (lock * bool) -> world V -> Prop) (Q : post B) : post A :=
  fun r cl ids h u => match r with Ret a => k a cl ids h u | Panic => Q Panic cl ids h u | UB => Q UB cl ids h u | Block => Q Block cl ids h u end.
Lemma lw0_bind {A B} cl ids h u (p : prog V A) (k : A -> prog V B) (Q : post B) :
  lw0 cl ids h u p (pass (fun a cl ids h u => lw cl ids h u (k a) Q) Q) -> lw cl ids h u (pbind p k) Q.
Proof.
  revert cl ids h u. induction p as [a| | | |l x p IH|l x p IH|C lab f p IH]; intros cl ids h u; cbn [lw0 pbind]; intros H.
  - done.
  - by apply lw_now.
  - by apply lw_now.
  - by apply lw_now.
  - apply lw_now. intros Hc u' Hu. destruct (H Hc u' Hu) as (e & cl' & H1 & H2). destruct (IH _ _ _ _ H2) as (e2 & cl2 & H3 & H4).
    exists (e ++ e2), cl2. split; [by eapply ghosts_app|done].
  - apply lw_now. destruct H as (e & cl' & H1 & H2). destruct (IH _ _ _ _ H2) as (e2 & cl2 & H3 & H4).
    exists (e ++ e2), cl2. split; [by eapply ghosts_app|done].
  - apply lw_now. destruct H as [Hl H]. split; [done|]. intros w Hw. destruct (H w Hw) as (e & cl' & ids' & H1 & H2 & H3). exists e, cl', ids'. split; [done|]. split; [done|].
    destruct ((f w).1); try done. destruct H3 as (e' & cl'' & H3 & H4). destruct (IH _ _ _ _ _ H4) as (e2 & cl2 & H5 & H6).
    exists (e' ++ e2), cl2. split; [by eapply ghosts_app|done].
Qed.
Lemma lw_bind {A B} cl ids h u (p : prog V A) (k : A -> prog V B) (Q : post B) :
  lw cl ids h u p (pass (fun a cl ids h u => lw cl ids h u (k a) Q) Q) -> lw cl ids h u (pbind p k) Q.
Proof. intros (e & cl' & H1 & H2). eapply lw_ghost; [exact H1|]. by apply lw0_bind. Qed.
Lemma lw_ret {A} cl ids h u (a : A) (Q : post A) : Q (Ret a) cl ids h u -> lw cl ids h u (PRet a) Q.
Proof. intros H. by apply lw_now. Qed.
Lemma lw_acq cl ids h u l x (Q : post unit) :
  (conflict h l x = false -> forall u', pos ids h u u' -> Q (Ret tt) cl ids ((l, x) :: h) u') -> lw cl ids h u (acq l x) Q.
Proof. intros H. apply lw_now. intros Hc u' Hu. exists [], cl. split; [constructor|]. by apply H. Qed.
Lemma lw_rel cl ids h u l x (Q : post unit) : Q (Ret tt) cl ids (drop_hold l x h) u -> lw cl ids h u (rel l x) Q.
Proof. intros H. apply lw_now. exists [], cl. split; [constructor|done]. Qed.
Lemma lw_ask {A} cl ids h u (f : world V -> outcome A) (Q : post A) : (forall w, pos ids h u w -> Q (f w) cl ids h w) -> lw cl ids h u (ask f) Q.
Proof.
  intros H. apply lw_now. split; [done|]. intros w Hw. exists [], cl, ids. simpl. split; [constructor|]. split; [done|].
  specialize (H w Hw). destruct (f w); try done. exists [], cl. split; [constructor|done].
Qed.
Lemma lw_look {A} cl ids h u (f : world V -> A) (Q : post A) : (forall w, pos ids h u w -> Q (Ret (f w)) cl ids h w) -> lw cl ids h u (look f) Q.
Proof. intros H. apply (lw_ask cl ids h u (fun w => Ret (f w))). done. Qed.
Lemma lw_passert cl ids h u b (Q : post unit) : (b = true -> Q (Ret tt) cl ids h u) -> (b = false -> Q Panic cl ids h u) -> lw cl ids h u (passert b) Q.
Proof. intros H1 H2. apply lw_now. destruct b; simpl; auto. Qed.
(** the piece of work at which the call takes effect *)
Lemma lw_act {A} (new : world V -> list nat) o ids h u lab (m : M (world V) A) (Q : post A) : calm_label lab ->
  (forall w, pos ids h u w -> exists r, step o w = (r, (m w).2) /\ (okw (m w).2 -> known ids (m w).2 -> known (new w) (m w).2) /\
     Q (m w).1 (Took r) (new w) h (m w).2) ->
  lw (Todo o) ids h u (act lab m) Q.
Proof.
  intros Hl H. apply lw_now. split; [done|]. intros w Hw. destruct (H w Hw) as (r & H1 & H2 & H3).
  exists [(o, r)], (Took r), (new w). split; [by constructor|]. split; [done|].
  destruct ((m w).1); try done. exists [], (Took r). split; [constructor|done].
Qed.
Lemma lw_rels {A} cl ids h u hs (p : prog V A) (Q : post A) : (forall h, lw cl ids h u p Q) -> lw cl ids h u (rels hs p) Q.
Proof.
  revert h. induction hs as [|[l x] hs IH]; intros h H; simpl; [done|]. apply lw_now. simpl.
  destruct (IH (drop_hold l x h) H) as (e & cl' & H1 & H2). by exists e, cl'.
Qed.
(** ** The calls *)
Definition Qop : post (out V) := fun r cl ids h u =>
  match r with Ret _ | Panic => exists e, ghosts ids h u cl e (Took r) | _ => True end.
Lemma Qop_nil r ids h u : Qop r (Took r) ids h u.
Proof. destruct r; try done; exists []; constructor. Qed.
Lemma ghost_one ids h u o r : (forall w, pos ids h u w -> step o w = (r, w)) -> ghosts ids h u (Todo o) [(o, r)] (Took r).
Proof. intros H. constructor; [done|]. constructor. Qed.

Lemma pos_refl ids h u : okw u -> known ids u -> pos ids h u u.
Proof. intros H1 H2. split; [done|]. split; [done|]. split; [apply shape_refl|]. intros. apply part_refl. Qed.
Lemma pos_part ids h u w l x : pos ids h u w -> (l, x) ∈ h -> part_eq l u w.
Proof. intros (_ & _ & _ & H). apply H. Qed.
Lemma pos_shape ids h u w : pos ids h u w -> same_shape w0 w.
Proof. intros ([H _] & _). done. Qed.
Lemma pos_em ids h u w x : pos ids h u w -> (LMan, x) ∈ h -> w_em w = w_em u.
Proof. intros H Hin. symmetry. exact (pos_part _ _ _ _ _ _ H Hin). Qed.

Lemma em_known w id : em_ok w -> id ∈ ents (w_em w) -> exist id w = Ret true.
Proof.
  intros (n & free & H) Hin. unfold exist. assert (1 <= id <= n) as Hid by (eapply er_elem; eauto).
  rewrite (em_has_spec _ _ _ id H) by lia. rewrite decide_False by lia. rewrite bool_decide_true; [done|]. left. intros Hf. by eapply er_disj.
Qed.
Lemma em_alloc w : em_ok w -> exists id e', em_allocate (w_em w) = (Ret id, e') /\ em_ok (set_em e' w) /\ id ∈ ents e' /\ forall x, x ∈ ents (w_em w) -> x ∈ ents e'.
Proof.
  intros (n & free & H). destruct (em_allocate_spec _ _ _ H) as (e' & E & H'). eexists _, e'. split; [exact E|]. split; [by eexists _, _|].
  assert (ents e' = ents (w_em w) ++ [match free with f :: _ => f | [] => S n end]) as ->.
  { revert E. unfold em_allocate, bind, get, put, unwrap, ret; simpl. destruct (flags (w_em w) !! 0) as [[]|]; simpl; [| |done].
    - destruct (flags (w_em w) !! next); simpl; [|done]. destruct (vec_set _ next _); simpl; [|done]. destruct (vec_set _ 0 _); simpl; [|done]. by intros [= -> <-].
    - by intros [= -> <-]. }
  split; [apply elem_of_app; right; left|]. intros x Hx. apply elem_of_app. by left.
Qed.

Lemma lw_step_act o ids h u lab (Q : post (out V)) : calm_label lab ->
  (forall w r w', pos ids h u w -> step o w = (r, w') -> Q r (Took r) ids h w') ->
  lw (Todo o) ids h u (act lab (step o)) Q.
Proof.
  intros Hl H. apply (lw_act (fun _ => ids)); [done|]. intros w Hw. exists (step o w).1. split; [by destruct (step o w)|]. split; [done|].
  eapply H; [exact Hw|]. by destruct (step o w).
Qed.
Lemma lw_via o ids h u l x lab there : calm_label lab -> lw (Todo o) ids h u (via_guard l x lab there o) Qop.
Proof.
  intros Hl. unfold via_guard. apply lw_bind, lw_look. intros w Hw. cbn [pass]. destruct (there w).
  - apply lw_bind, lw_acq. intros _ u' Hu. apply lw_bind, lw_step_act; [done|]. intros w1 r w2 Hw1 E. destruct r; try done; [|apply Qop_nil].
    apply lw_bind, lw_rel. apply lw_ret. apply (Qop_nil (Ret a)).
  - apply lw_step_act; [done|]. intros w1 r w2 _ _. apply Qop_nil.
Qed.
Lemma lw_create ids h u : lw (Todo CreateEntity) ids h u (p_call CreateEntity) Qop.
Proof.
  cbn [p_call]. apply lw_bind. unfold p_new_entity. apply lw_bind, lw_acq. intros _ u1 _. cbn [pass]. apply lw_bind.
  apply (lw_act (fun w => match em_allocate (w_em w) with (Ret id, _) => id :: ids | _ => ids end)); [done|].
  intros w Hw. destruct (em_alloc w) as (id & e' & E & Ho & Hin & Hm); [apply Hw|].
  exists (Ret (OId id)). unfold on_em. rewrite E. cbn [fst snd]. split.
  { cbn [step]. unfold fmapM, create_entity, bind, on_em, get, lift. rewrite E.
    rewrite (em_known (set_em e' w) id Ho Hin). reflexivity. }
  split.
  { intros _ Hk x Hx. apply elem_of_cons in Hx as [->|Hx]; [done|]. by apply Hk. }
  cbn [pass]. apply lw_bind, lw_rel. cbn [pass]. apply lw_bind. unfold p_entity. apply lw_bind, lw_acq. intros _ u2 Hu2. cbn [pass].
  apply lw_bind, lw_ask. intros w2 Hw2. rewrite (em_known w2 id); [|apply Hw2|apply Hw2; left]. cbn [pass]. apply lw_ret. cbn [pass].
  apply lw_bind. apply lw_passert; [intros _|done]. cbn [pass]. apply lw_ret. cbn [pass]. apply lw_bind, lw_rel. cbn [pass]. apply lw_ret. apply (Qop_nil (Ret (OId id))).
Qed.
Lemma lw_creates n ids h u : lw (Todo (CreateEntities n)) ids h u (p_call (CreateEntities n)) Qop.
Proof.
  cbn [p_call]. apply lw_bind. unfold p_new_entities. apply lw_bind, lw_acq. intros _ u1 _. cbn [pass]. apply lw_bind.
  apply (lw_act (fun _ => ids)); [done|]. intros w Hw.
  assert (step (CreateEntities n) w = match on_em (em_allocate_n n) w with (Ret r, w') => (Ret (ORange r.1 r.2), w') | (Panic, w') => (Panic, w') | (UB, w') => (UB, w') | (Block, w') => (Block, w') end) as E.
  { cbn [step]. unfold fmapM, create_entities, bind, ret. by destruct (on_em _ w) as [[]]. }
  destruct (on_em (em_allocate_n n) w) as [r w'] eqn:Er. rewrite E. cbn [fst snd].
  destruct r as [r| | |]; eexists; (split; [reflexivity|]); (split; [done|]); try apply Qop_nil.
  cbn [pass]. apply lw_bind, lw_rel. cbn [pass]. apply lw_bind, lw_acq. intros _ u2 _. cbn [pass]. apply lw_ret. cbn [pass].
  apply lw_bind, lw_rel. cbn [pass]. apply lw_ret. apply (Qop_nil (Ret (ORange r.1 r.2))).
Qed.
Lemma exist_same ids h u w x id : pos ids h u w -> (LMan, x) ∈ h -> exist id w = exist id u.
Proof. intros H Hin. unfold exist. by rewrite (pos_em _ _ _ _ _ H Hin). Qed.
Lemma lw_exist id ids h u : lw (Todo (Exist id)) ids h u (p_call (Exist id)) Qop.
Proof.
  assert (forall w, step (Exist id) w = (match exist id w with Ret b => Ret (OBool b) | Panic => Panic | UB => UB | Block => Block end, w)) as HS.
  { intros w. cbn [step]. unfold fmapM, bind, get, lift, ret. by destruct (exist id w). }
  cbn [p_call]. apply lw_bind. unfold p_exist. apply lw_bind, lw_acq. intros _ u1 _. cbn [pass]. apply lw_bind, lw_ask. intros w Hw.
  assert (forall w1, pos ids ((LMan, false) :: h) w w1 -> step (Exist id) w1 = (match exist id w with Ret b => Ret (OBool b) | Panic => Panic | UB => UB | Block => Block end, w1)) as HS'.
  { intros w1 H1. rewrite HS, (exist_same _ _ _ _ false id H1); [done|left]. }
  destruct (exist id w) as [b| | |]; cbn [pass]; try done.
  - eapply lw_ghost; [apply (ghost_one _ _ _ _ _ HS')|]. apply lw_bind, lw_rel. cbn [pass]. apply lw_ret. cbn [pass]. apply lw_ret. apply (Qop_nil (Ret (OBool b))).
  - exists [(Exist id, Panic)]. by apply ghost_one.
Qed.

Lemma agree_trans h u1 u2 u3 : agree h u1 u2 -> agree h u2 u3 -> agree h u1 u3.
Proof. intros [H1 H2] [H3 H4]. split; [by eapply shape_trans|]. intros l x Hl. eapply part_trans; eauto. Qed.
Lemma pos_trans ids h u u' w : agree h u u' -> pos ids h u' w -> pos ids h u w.
Proof. intros H (H1 & H2 & H3). split; [done|]. split; [done|]. by eapply agree_trans. Qed.
Lemma pos_cons ids y h u w : pos ids (y :: h) u w -> pos ids h u w.
Proof. intros (H1 & H2 & H3). split; [done|]. split; [done|]. eapply agree_sub; [|exact H3]. intros z Hz. by right. Qed.
Lemma pos_agree ids h u w : pos ids h u w -> agree h u w.
Proof. intros (_ & _ & H). done. Qed.

Lemma ungrouped_with w t : same_shape w0 w -> ungrouped w0 t -> groups_with t (w_groups w) 0 = [].
Proof.
  intros Hs Hu. assert (forall gs i, (forall j g, gs !! j = Some g -> w_groups w !! (i + j) = Some g) -> groups_with t gs i = []) as H.
  { induction gs as [|g gs IH]; intros i Hg; [done|]. cbn [groups_with]. destruct (g_types g) as [a b] eqn:Et.
    assert (exists k, group_head i w = Some (k, a, b)) as [k Hk].
    { specialize (Hg 0 g eq_refl). rewrite Nat.add_0_r in Hg. unfold group_head. rewrite Hg. destruct g; simpl in Et; injection Et as <- <-; by eexists. }
    rewrite <- (sh_groups _ _ Hs) in Hk. destruct (Hu _ _ _ _ Hk) as [Ha Hb].
    rewrite (proj2 (Nat.eqb_neq a t)), (proj2 (Nat.eqb_neq b t)) by done. simpl. apply IH.
    intros j g' Hj. replace (S i + j) with (i + S j) by lia. by apply Hg. }
  apply H. done.
Qed.
Lemma lw_groups t cl ids h u i n (Q : post (list nat)) : ungrouped w0 t ->
  (forall u', agree h u u' -> Q (Ret []) cl ids h u') -> lw cl ids h u (p_groups t i n) Q.
Proof.
  intros Hu. revert i u. induction n as [|n IH]; intros i u H; cbn [p_groups].
  - apply lw_ret, H. split; [apply shape_refl|]. intros. apply part_refl.
  - apply lw_bind, lw_acq. intros _ u1 H1. cbn [pass]. apply lw_bind, lw_look. intros w Hw. cbn [pass]. apply lw_bind, lw_rel. cbn [pass].
    rewrite drop_hold_head.
    assert (match group_head i w with Some (_, a, b) => (a =? t) || (b =? t) | None => false end = false) as ->.
    { destruct (group_head i w) as [[[k a] b]|] eqn:E; [|done]. rewrite <- (sh_groups _ _ (pos_shape _ _ _ _ Hw)) in E. destruct (Hu _ _ _ _ E) as [Ha Hb].
      by rewrite (proj2 (Nat.eqb_neq a t)), (proj2 (Nat.eqb_neq b t)) by done. }
    apply IH. intros u' Hu'. apply H. eapply agree_trans; [exact (pos_agree _ _ _ _ H1)|]. eapply agree_trans; [exact (pos_agree _ _ _ _ (pos_cons _ _ _ _ _ Hw))|done].
Qed.

Lemma step_attach_dead t id v w : exist id w <> Ret true -> step (Attach t id v) w = (match exist id w with UB => UB | Block => Block | _ => Panic end, w).
Proof. intros H. cbn [step]. unfold fmapM, attach_component, bind, get, lift, assert, panic. by destruct (exist id w) as [[]| | |]. Qed.
Lemma step_detach_dead t id w : exist id w <> Ret true -> step (Detach t id) w = (match exist id w with UB => UB | Block => Block | _ => Panic end, w).
Proof. intros H. cbn [step]. unfold fmapM, detach_component, bind, get, lift, assert, panic. by destruct (exist id w) as [[]| | |]. Qed.
Lemma step_attach_noreg t id v w : exist id w = Ret true -> has_registered t w = false -> step (Attach t id v) w = (Panic, w).
Proof. intros H1 H2. cbn [step]. unfold fmapM, attach_component, entity_attach, bind, get, lift, assert, panic, ret. rewrite H1. by rewrite H2. Qed.
Lemma step_detach_noreg t id w : exist id w = Ret true -> has_registered t w = false -> step (Detach t id) w = (Panic, w).
Proof. intros H1 H2. cbn [step]. unfold fmapM, detach_component, entity_detach, bind, get, lift, assert, panic, ret. rewrite H1. by rewrite H2. Qed.
Lemma storage_mut_groups {A} t (m : M (sset V) A) w : w_groups (storage_mut t m w).2 = w_groups w.
Proof. unfold storage_mut. destruct (w_comps w !! t); [|done]. destruct (st_ty _ =? t); [|done]. by destruct (m _). Qed.
Lemma step_attach_free t id v w : exist id w = Ret true -> has_registered t w = true -> groups_with t (w_groups w) 0 = [] ->
  step (Attach t id v) w = (match (storage_mut t (ss_add id v) w).1 with Ret _ => Ret OUnit | Panic => Panic | UB => UB | Block => Block end, (storage_mut t (ss_add id v) w).2).
Proof.
  intros H1 H2 H3. cbn [step]. unfold fmapM, attach_component, entity_attach, bind, get, lift, assert, panic, ret. rewrite H1, H2.
  pose proof (storage_mut_groups t (ss_add id v) w) as E. destruct (storage_mut t (ss_add id v) w) as [[]]; try done. cbn [fst snd] in *. rewrite E, H3. done.
Qed.
Lemma step_detach_free t id w : exist id w = Ret true -> has_registered t w = true -> groups_with t (w_groups w) 0 = [] ->
  step (Detach t id) w = (match (storage_mut t (ss_remove id) w).1 with Ret r => Ret (OVal r) | Panic => Panic | UB => UB | Block => Block end, (storage_mut t (ss_remove id) w).2).
Proof.
  intros H1 H2 H3. cbn [step]. unfold fmapM, detach_component, entity_detach, bind, get, lift, assert, panic, ret. rewrite H1, H2, H3. cbn [for_each]. unfold ret.
  by destruct (storage_mut t (ss_remove id) w) as [[]].
Qed.

(** The handle: panics and refusals take effect while the manager is locked. *)
Lemma lw_p_entity o ids h u id (Q : post bool) :
  (forall w, exist id w <> Ret true -> step o w = (match exist id w with UB => UB | Block => Block | _ => Panic end, w)) ->
  (forall u', exist id u' = Ret true -> Q (Ret true) (Todo o) ids ((LMan, false) :: h) u') ->
  (forall h u', Q (Ret false) (Took Panic) ids h u') ->
  (forall h u' e, ghosts ids h u' (Todo o) e (Took Panic) -> Q Panic (Todo o) ids h u') ->
  (forall h u', Q UB (Todo o) ids h u' /\ Q Block (Todo o) ids h u') ->
  lw (Todo o) ids h u (p_entity id) Q.
Proof.
  intros HS H1 H2 H3 H4. unfold p_entity. apply lw_bind, lw_acq. intros _ u1 _. cbn [pass]. apply lw_bind, lw_ask. intros w Hw.
  assert (exist id w <> Ret true -> forall w1, pos ids ((LMan, false) :: h) w w1 -> step o w1 = (match exist id w with UB => UB | Block => Block | _ => Panic end, w1)) as HS'.
  { intros Hne w1 Hp. rewrite HS; rewrite (exist_same _ _ _ _ false id Hp); (done || left). }
  destruct (exist id w) as [[]| | |] eqn:E; cbn [pass].
  - apply lw_ret. by apply H1.
  - eapply lw_ghost; [apply (ghost_one _ _ _ _ _ (HS' ltac:(done)))|]. apply lw_bind, lw_rel. cbn [pass]. apply lw_ret. apply H2.
  - eapply H3. apply (ghost_one _ _ _ _ _ (HS' ltac:(done))).
  - apply H4.
  - apply H4.
Qed.
Lemma pos_reg ids h u w t : pos ids h u w -> has_registered t w = has_registered t w0.
Proof. intros H. symmetry. apply shape_has. by eapply pos_shape. Qed.
Lemma lw_attach t id v ids h u : ungrouped w0 t -> lw (Todo (Attach t id v)) ids h u (p_call (Attach t id v)) Qop.
Proof.
  intros Hu. cbn [p_call]. apply lw_bind. apply lw_p_entity.
  - intros w Hw. by apply step_attach_dead.
  - intros u1 He. cbn [pass]. apply lw_bind. apply lw_passert; [intros _|done]. cbn [pass]. apply lw_bind. unfold p_handle_attach.
    apply lw_bind, lw_look. intros w Hw. cbn [pass]. apply lw_bind. apply lw_passert.
    + intros Hr. cbn [pass]. apply lw_bind, lw_acq. intros _ u2 Hu2. cbn [pass]. apply lw_bind. apply (lw_act (fun _ => ids)); [done|].
      intros w1 Hw1. eexists. split.
      { pose proof (pos_trans _ _ _ _ _ (pos_agree _ _ _ _ Hu2) (pos_cons _ _ _ _ _ Hw1)) as Hw1'.
        apply step_attach_free.
        - rewrite (exist_same _ _ _ _ false id Hw1') by left. rewrite (exist_same _ _ _ _ false id Hw) by left. done.
        - by rewrite (pos_reg _ _ _ _ t Hw1), <- (pos_reg _ _ _ _ t Hw).
        - apply ungrouped_with; [by eapply pos_shape|done]. }
      split; [done|]. destruct ((storage_mut t (ss_add id v) w1).1) as [[]| | |]; cbn [pass]; try done; [|apply Qop_nil].
      apply lw_bind, lw_rel. cbn [pass]. apply lw_bind, lw_look. intros w2 Hw2. cbn [pass]. apply lw_bind. apply lw_groups; [done|].
      intros u' _. cbn [pass]. apply lw_ret. cbn [pass]. apply lw_bind, lw_rel. cbn [pass]. apply lw_ret. apply (Qop_nil (Ret OUnit)).
    + intros Hr. cbn [pass]. exists [(Attach t id v, Panic)]. apply ghost_one. intros w1 Hw1. apply step_attach_noreg.
      * rewrite (exist_same _ _ _ _ false id Hw1) by left. rewrite (exist_same _ _ _ _ false id Hw) by left. done.
      * by rewrite (pos_reg _ _ _ _ t Hw1), <- (pos_reg _ _ _ _ t Hw).
  - intros h' u'. cbn [pass]. apply lw_bind. apply lw_passert; [done|intros _]. cbn [pass]. apply Qop_nil.
  - intros h' u' e He. cbn [pass]. by exists e.
  - done.
Qed.
Lemma lw_detach t id ids h u : ungrouped w0 t -> lw (Todo (Detach t id)) ids h u (p_call (Detach t id)) Qop.
Proof.
  intros Hu. cbn [p_call]. apply lw_bind. apply lw_p_entity.
  - intros w Hw. by apply step_detach_dead.
  - intros u1 He. cbn [pass]. apply lw_bind. apply lw_passert; [intros _|done]. cbn [pass]. apply lw_bind. unfold p_handle_detach.
    apply lw_bind, lw_look. intros w Hw. cbn [pass]. apply lw_bind. apply lw_passert.
    + intros Hr. cbn [pass]. apply lw_bind, lw_look. intros wn Hwn. cbn [pass]. apply lw_bind. apply lw_groups; [done|]. intros ug Hug. cbn [pass].
      apply lw_bind. apply lw_ret. cbn [pass].
      apply lw_bind, lw_acq. intros _ u2 Hu2. cbn [pass]. apply lw_bind. apply (lw_act (fun _ => ids)); [done|].
      intros w1 Hw1. eexists. split.
      { pose proof (pos_trans _ _ _ _ _ Hug (pos_trans _ _ _ _ _ (pos_agree _ _ _ _ Hu2) (pos_cons _ _ _ _ _ Hw1))) as Hw1'.
        apply step_detach_free.
        - rewrite (exist_same _ _ _ _ false id Hw1') by left. rewrite (exist_same _ _ _ _ false id Hwn) by left. rewrite (exist_same _ _ _ _ false id Hw) by left. done.
        - by rewrite (pos_reg _ _ _ _ t Hw1), <- (pos_reg _ _ _ _ t Hw).
        - apply ungrouped_with; [by eapply pos_shape|done]. }
      split; [done|]. destruct ((storage_mut t (ss_remove id) w1).1) as [r| | |]; cbn [pass]; try done; [|apply Qop_nil].
      apply lw_bind, lw_rel. cbn [pass]. apply lw_ret. cbn [pass]. apply lw_bind, lw_rel. cbn [pass]. apply lw_ret. apply (Qop_nil (Ret (OVal r))).
    + intros Hr. cbn [pass]. exists [(Detach t id, Panic)]. apply ghost_one. intros w1 Hw1. apply step_detach_noreg.
      * rewrite (exist_same _ _ _ _ false id Hw1) by left. rewrite (exist_same _ _ _ _ false id Hw) by left. done.
      * by rewrite (pos_reg _ _ _ _ t Hw1), <- (pos_reg _ _ _ _ t Hw).
  - intros h' u'. cbn [pass]. apply lw_bind. apply lw_passert; [done|intros _]. cbn [pass]. apply Qop_nil.
  - intros h' u' e He. cbn [pass]. by exists e.
  - done.
Qed.

(** ** Queries *)
Lemma n_groups_shape w : same_shape w0 w -> n_groups w = n_groups w0.
Proof. intros H. symmetry. by apply shape_len. Qed.
Definition oheld (hd : held) h : Prop := forall t m, (t, m) ∈ hd -> (LStore t, m) ∈ h.
Lemma oheld_free hd h t m : oheld hd h -> conflict h (LStore t) m = false -> lock_conflict hd t m = false.
Proof.
  intros Hh Hc. apply not_true_iff_false. intros Hl. apply not_true_iff_false in Hc. apply Hc. unfold lock_conflict in Hl. apply existsb_exists in Hl as ([t' y] & Hin & Hb).
  apply elem_of_list_In in Hin. cbn [fst snd] in Hb. apply andb_true_iff in Hb as [Ht Hb]. apply Nat.eqb_eq in Ht as ->.
  apply conflict_true. exists y. split; [by apply Hh|done].
Qed.
Lemma oheld_cons hd h t m : oheld hd h -> oheld ((t, m) :: hd) ((LStore t, m) :: h).
Proof. intros H t' m' Hin. apply elem_of_cons in Hin as [[= -> ->]|Hin]; [left|right; by apply H]. Qed.
Lemma oheld_more hd h y : oheld hd h -> oheld hd (y :: h).
Proof. intros H t' m' Hin. right. by apply H. Qed.
Definition opened {A B} ids (hd : held) h u (m : world V -> M held B) (f : A -> B) (r : outcome A) h' u' : Prop :=
  agree h u u' /\ h ⊆ h' /\
  match r with
  | Ret x => exists hd', oheld hd' h' /\ forall w, pos ids h' u' w -> m w hd = (Ret (f x), hd')
  | Panic => forall w, pos ids h' u' w -> (m w hd).1 = Panic
  | _ => True
  end.
Definition opens {A B} (p : prog V A) (m : world V -> M held B) (f : A -> B) : Prop :=
  forall cl ids h u hd (Q : post A), oheld hd h ->
  (forall r h' u', opened ids hd h u m f r h' u' -> Q r cl ids h' u') -> lw cl ids h u p Q.
Lemma agree_refl h u : agree h u u.
Proof. split; [apply shape_refl|]. intros. apply part_refl. Qed.
Lemma pos_back ids h u h' u' w : agree h u u' -> h ⊆ h' -> pos ids h' u' w -> pos ids h u w.
Proof. intros Ha Hs (H1 & H2 & H3). split; [done|]. split; [done|]. eapply agree_trans; [done|]. eapply agree_sub; [|exact H3]. apply Hs. Qed.
Lemma find_gfind w k a b : same_shape w0 w -> find_group (new_group k a b) (w_groups w) 0 = gfind w0 k a b 0 (n_groups w0).
Proof.
  intros Hs. rewrite <- (n_groups_shape _ Hs). unfold n_groups.
  assert (forall gs i, (forall j g, gs !! j = Some g -> w_groups w !! (i + j) = Some g) -> find_group (new_group k a b) gs i = gfind w0 k a b i (length gs)) as H; [|by apply H].
  induction gs as [|g gs IH]; intros i Hg; [done|]. cbn [find_group gfind length].
  assert (g_eqb g (new_group k a b) = bool_decide (group_head i w0 = Some (k, a, b))) as ->.
  { specialize (Hg 0 g eq_refl). rewrite Nat.add_0_r in Hg. rewrite (sh_groups _ _ Hs). unfold group_head. rewrite Hg.
    destruct g as [[]|[]|[]], k; cbn; try (symmetry; apply bool_decide_eq_false; by intros [=]);
    (destruct (Nat.eqb_spec fd_a a) || destruct (Nat.eqb_spec pd_a a) || destruct (Nat.eqb_spec nd_a a)); cbn;
    try (symmetry; apply bool_decide_eq_false; by intros [=]);
    (destruct (Nat.eqb_spec fd_b b) || destruct (Nat.eqb_spec pd_b b) || destruct (Nat.eqb_spec nd_b b)); subst; cbn; symmetry;
    (apply bool_decide_eq_true; reflexivity) || (apply bool_decide_eq_false; by intros [=]). }
  destruct (bool_decide _); [done|]. apply IH. intros j g' Hj. replace (S i + j) with (i + S j) by lia. by apply Hg.
Qed.
Lemma has_gfind w k a b : same_shape w0 w -> has_group (new_group k a b) w = bool_decide (is_Some (gfind w0 k a b 0 (n_groups w0))).
Proof.
  intros Hs. rewrite <- (find_gfind w k a b Hs). unfold has_group. generalize 0. induction (w_groups w) as [|g gs IH]; intros i; [done|]. cbn [existsb find_group].
  destruct (g_eqb _ _); cbn [orb]; [|apply IH]. symmetry. apply bool_decide_eq_true. by eexists.
Qed.
Lemma lw_find_group k a b cl ids h u i n (Q : post (option nat)) :
  (forall u', agree h u u' -> Q (Ret (gfind w0 k a b i n)) cl ids h u') -> lw cl ids h u (p_find_group k a b i n) Q.
Proof.
  revert i u. induction n as [|n IH]; intros i u H; cbn [p_find_group].
  - apply lw_ret, H. apply agree_refl.
  - apply lw_bind, lw_acq. intros _ u1 H1. cbn [pass]. apply lw_bind, lw_look. intros w Hw. cbn [pass]. apply lw_bind, lw_rel. cbn [pass].
    rewrite drop_hold_head. rewrite <- (sh_groups _ _ (pos_shape _ _ _ _ Hw)). cbn [gfind] in H.
    assert (agree h u w) as Ha. { eapply agree_trans; [exact (pos_agree _ _ _ _ H1)|exact (pos_agree _ _ _ _ (pos_cons _ _ _ _ _ Hw))]. }
    destruct (bool_decide _); [apply lw_ret; by apply H|]. apply IH. intros u' Hu'. apply H. by eapply agree_trans.
Qed.
Lemma lw_downcast cl ids h u t (Q : post unit) :
  (forall u' r, agree h u u' -> (forall w, same_shape w0 w -> forall hd, downcast w t hd = (r, hd)) -> Q r cl ids h u') ->
  lw cl ids h u (p_downcast t) Q.
Proof.
  intros H. unfold p_downcast. apply lw_ask. intros w Hw. apply H; [by apply (pos_agree ids)|].
  intros w1 Hs1 hd. unfold downcast. pose proof (sh_comps _ _ (pos_shape _ _ _ _ Hw) t) as E. rewrite (sh_comps _ _ Hs1 t) in E.
  destruct (w_comps w !! t) as [s|], (w_comps w1 !! t) as [s1|]; simpl in E; try done. injection E as ->. by destruct (st_ty s =? t).
Qed.
Lemma lock_ok hd t m : lock_conflict hd t m = false -> ModelQuery.lock t m hd = (Ret tt, (t, m) :: hd).
Proof. intros H. unfold ModelQuery.lock, bind, get, put. by rewrite H. Qed.
Lemma opens_ret {A B} (a : A) (b : B) (f : A -> B) : f a = b -> opens (PRet a) (fun _ => ret b) f.
Proof. intros <- cl ids h u hd Q Hh HQ. apply lw_ret, HQ. split; [apply agree_refl|]. split; [done|]. by exists hd. Qed.
Lemma opens_bind {A B C D} (p : prog V A) m (f : A -> B) (k : A -> prog V C) (km : world V -> B -> M held D) (g : C -> D) :
  opens p m f -> (forall x, opens (k x) (fun w => km w (f x)) g) -> opens (pbind p k) (fun w => bind (m w) (km w)) g.
Proof.
  intros Hp Hk cl ids h u hd Q Hh HQ. apply lw_bind. apply (Hp _ _ _ _ hd); [done|]. intros r h1 u1 (Ha & Hs & Hr).
  destruct r as [x| | |]; cbn [pass].
  - destruct Hr as (hd1 & Hh1 & Hm). apply (Hk x _ _ _ _ hd1); [done|]. intros r h2 u2 (Ha2 & Hs2 & Hr2). apply HQ.
    assert (agree h u u2) as Ha3. { eapply agree_trans; [exact Ha|]. eapply agree_sub; [|exact Ha2]. done. }
    split; [done|]. split; [by etrans|].
    assert (forall w, pos ids h2 u2 w -> bind (m w) (km w) hd = km w (f x) hd1) as E.
    { intros w Hw. unfold bind. rewrite Hm; [done|]. by eapply pos_back. }
    destruct r as [y| | |]; try done.
    + destruct Hr2 as (hd2 & Hh2 & Hm2). exists hd2. split; [done|]. intros w Hw. rewrite E by done. by apply Hm2.
    + intros w Hw. rewrite E by done. by apply Hr2.
  - apply HQ. split; [done|]. split; [done|]. intros w Hw. unfold bind. specialize (Hr w Hw). destruct (m w hd) as [o hd']. simpl in Hr. by subst o.
  - by apply HQ.
  - by apply HQ.
Qed.
Lemma opens_ext {A B} (p : prog V A) m m' (f : A -> B) : (forall w hd, m w hd = m' w hd) -> opens p m f -> opens p m' f.
Proof.
  intros He H cl ids h u hd Q Hh HQ. apply (H _ _ _ _ hd); [done|]. intros r h' u' (Ha & Hs & Hr). apply HQ. split; [done|]. split; [done|].
  destruct r; try done.
  - destruct Hr as (hd' & ? & Hr). exists hd'. split; [done|]. intros w Hw. rewrite <- He. by apply Hr.
  - intros w Hw. rewrite <- He. by apply Hr.
Qed.
(** something fixed by the shape *)
Lemma opens_assert (g : world V -> bool) : (forall w, same_shape w0 w -> g w = g w0) ->
  opens (pbind (look g) (fun b => passert b)) (fun w => assert (g w)) (fun x => x).
Proof.
  intros Hg cl ids h u hd Q Hh HQ. apply lw_bind, lw_look. intros w Hw. cbn [pass]. rewrite (Hg w) by (by eapply pos_shape).
  apply lw_passert; intros Hb; apply HQ; (split; [by apply (pos_agree ids)|]; split; [done|]).
  - exists hd. split; [done|]. intros w1 Hw1. rewrite (Hg w1), Hb by (by eapply pos_shape). done.
  - intros w1 Hw1. rewrite (Hg w1), Hb by (by eapply pos_shape). done.
Qed.
Lemma opens_lock t m : opens (acq (LStore t) m) (fun _ => ModelQuery.lock t m) (fun x => x).
Proof.
  intros cl ids h u hd Q Hh HQ. apply lw_acq. intros Hc u1 Hu1. apply HQ. split; [by apply (pos_agree ids)|]. split; [set_solver|].
  exists ((t, m) :: hd). split; [by apply oheld_cons|]. intros w Hw. apply lock_ok. by eapply oheld_free.
Qed.
Lemma opens_downcast t : opens (p_downcast t) (fun w => downcast w t) (fun x => x).
Proof.
  intros cl ids h u hd Q Hh HQ. apply lw_downcast. intros u' r Ha Hd. apply HQ. split; [done|]. split; [done|]. destruct r as [[]| | |]; try done.
  - exists hd. split; [done|]. intros w Hw. rewrite Hd; [done|]. by eapply pos_shape.
  - intros w Hw. rewrite Hd; [done|]. by eapply pos_shape.
Qed.
Lemma opens_group k ma mb a b : opens (p_open_group k ma mb a b) (fun w => query_open w (QGroup k ma mb a b)) fst.
Proof.
  unfold p_open_group. cbn [query_open].
  refine (opens_bind (pbind (look (fun w => has_registered a w && has_registered b w)) (fun r => passert r)) _ _ _ _ _ (opens_assert _ _) _).
  { intros w Hs. by rewrite !(shape_has _ _ _ Hs). }
  intros []. eapply opens_bind; [apply opens_lock|]. intros []. eapply opens_bind; [apply opens_lock|]. intros [].
  eapply opens_bind; [apply opens_downcast|]. intros []. eapply opens_bind; [apply opens_downcast|]. intros [].
  intros cl ids h u hd Q Hh HQ. apply lw_bind, lw_look. intros w Hw. cbn [pass]. rewrite (n_groups_shape w) by (by eapply pos_shape).
  apply lw_bind, lw_find_group. intros u1 Ha1. cbn [pass].
  assert (agree h u u1) as Ha1' by (eapply agree_trans; [exact (pos_agree _ _ _ _ Hw)|done]).
  apply lw_bind. apply lw_passert; intros Hb; cbn [pass].
  2:{ apply HQ. split; [done|]. split; [done|]. intros w1 Hw1. rewrite has_gfind by (by eapply pos_shape). by rewrite Hb. }
  apply lw_bind, lw_find_group. intros u2 Ha2. cbn [pass]. apply bool_decide_eq_true in Hb. destruct Hb as [gi Hgi]. rewrite Hgi. cbn [punwrap].
  apply lw_bind, lw_ret. cbn [pass]. apply lw_bind, lw_acq. intros _ u3 Hu3. cbn [pass].
  assert (agree h u u3) as Ha3. { eapply agree_trans; [exact Ha1'|]. eapply agree_trans; [exact Ha2|]. exact (pos_agree _ _ _ _ Hu3). }
  destruct (gfind_head _ _ _ _ _ _ _ Hgi) as [Hh0 _].
  assert (forall w1 (K : nat -> group -> M held (qiter V)), same_shape w0 w1 -> exists g, w_groups w1 !! gi = Some g /\
    (assert (has_group (new_group k a b) w1) >>! let! gi := unwrap (find_group (new_group k a b) (w_groups w1) 0) in
      let! g := unwrap (w_groups w1 !! gi) in K gi g) hd = K gi g hd) as E.
  { intros w1 K Hs. rewrite bind_assert_true by (rewrite has_gfind by done; rewrite Hgi; by apply bool_decide_eq_true; eexists).
    rewrite find_gfind by done. rewrite Hgi. pose proof (sh_groups _ _ Hs gi) as Eh. rewrite Hh0 in Eh. unfold group_head in Eh.
    destruct (w_groups w1 !! gi) as [g|] eqn:Eg; [|done]. exists g. split; [done|]. unfold bind, unwrap, ret. by rewrite Eg. }
  assert (forall w1 g, same_shape w0 w1 -> w_groups w1 !! gi = Some g -> match k with KFull => exists d, g = GFull d | KPart => exists d, g = GPart d | KNon => exists d, g = GNon d end) as HK.
  { intros w1 g Hs Hg. pose proof (sh_groups _ _ Hs gi) as Eh. rewrite Hh0 in Eh. unfold group_head in Eh. rewrite Hg in Eh. destruct g, k; try done; by eexists. }
  destruct k.
  - apply lw_bind, lw_ask. intros w1 Hw1. assert (agree h u w1) as Haw. { eapply agree_trans; [exact Ha3|]. exact (pos_agree _ _ _ _ (pos_cons _ _ _ _ _ Hw1)). }
    destruct (w_groups w1 !! gi) as [g|] eqn:Eg; cbn [pass].
    + apply lw_ret. apply HQ. split; [done|]. split; [set_solver|]. exists hd. split; [by apply oheld_more|]. intros w2 Hw2.
      match goal with |- context [unwrap (w_groups w2 !! _)] => idtac | _ => idtac end.
      destruct (E w2 (fun gi g => ret (iter_full ma mb a b (g_len g))) (pos_shape _ _ _ _ Hw2)) as (g2 & Eg2 & E2). rewrite E2.
      assert (g2 = g) as ->; [|done]. pose proof (pos_part _ _ _ _ (LGroup gi) false Hw2 ltac:(left)) as HP. cbn in HP. congruence.
    + apply HQ. split; [done|]. split; [set_solver|]. intros w2 Hw2. exfalso. destruct (E w1 (fun _ _ => panic) (pos_shape _ _ _ _ Hw1)) as (g2 & Eg2 & _). congruence.
  - apply lw_bind, lw_ask. intros w1 Hw1. assert (agree h u w1) as Haw. { eapply agree_trans; [exact Ha3|]. exact (pos_agree _ _ _ _ (pos_cons _ _ _ _ _ Hw1)). }
    destruct (w_groups w1 !! gi) as [g|] eqn:Eg; cbn [pass].
    + apply lw_ret. apply HQ. split; [done|]. split; [set_solver|]. exists hd. split; [by apply oheld_more|]. intros w2 Hw2.
      destruct (E w2 (fun gi g => ret (iter_part ma mb a b (g_len g))) (pos_shape _ _ _ _ Hw2)) as (g2 & Eg2 & E2). rewrite E2.
      assert (g2 = g) as ->; [|done]. pose proof (pos_part _ _ _ _ (LGroup gi) false Hw2 ltac:(left)) as HP. cbn in HP. congruence.
    + apply HQ. split; [done|]. split; [set_solver|]. intros w2 Hw2. exfalso. destruct (E w1 (fun _ _ => panic) (pos_shape _ _ _ _ Hw1)) as (g2 & Eg2 & _). congruence.
  - apply lw_ret. apply HQ. split; [done|]. split; [set_solver|]. exists hd. split; [by apply oheld_more|]. intros w2 Hw2.
    destruct (E w2 (fun gi g => match g with GNon _ => ret (iter_non ma mb a b gi) | _ => panic end) (pos_shape _ _ _ _ Hw2)) as (g2 & Eg2 & E2). rewrite E2.
    destruct (HK w2 g2 (pos_shape _ _ _ _ Hw2) Eg2) as [d ->]. done.
Qed.
Lemma opens_open q : opens (p_open q) (fun w => query_open w q) fst.
Proof.
  induction q as [m t|a IHa b IHb|a IHa b IHb c IHc|a IHa b IHb c IHc d IHd|a IHa b IHb c IHc d IHd e IHe
    |a IHa b IHb|a IHa b IHb|k ma mb a b]; cbn [p_open query_open].
  - unfold p_ref. refine (opens_bind (pbind (look (has_registered t)) (fun r => passert r)) _ _ _ _ _ (opens_assert _ _) _).
    { intros w Hs. by rewrite !(shape_has _ _ _ Hs). }
    intros []. eapply opens_bind; [apply opens_lock|]. intros []. eapply opens_bind; [apply opens_downcast|]. intros []. by apply opens_ret.
  - eapply opens_bind; [exact IHa|]. intros x. eapply opens_bind; [exact IHb|]. intros y. by apply opens_ret.
  - do 2 (eapply opens_bind; [eassumption|]; intros ?). eapply opens_bind; [exact IHc|]. intros y. by apply opens_ret.
  - do 3 (eapply opens_bind; [eassumption|]; intros ?). eapply opens_bind; [exact IHd|]. intros y. by apply opens_ret.
  - do 4 (eapply opens_bind; [eassumption|]; intros ?). eapply opens_bind; [exact IHe|]. intros y. by apply opens_ret.
  - eapply opens_bind; [exact IHa|]. intros x. eapply opens_bind; [exact IHb|]. intros y. by apply opens_ret.
  - eapply opens_bind; [exact IHa|]. intros x. eapply opens_bind; [exact IHb|]. intros y. by apply opens_ret.
  - apply opens_group.
Qed.
Lemma lw_query q ids h u : lw (Todo (Query q)) ids h u (p_call (Query q)) Qop.
Proof.
  cbn [p_call]. apply lw_bind. apply (opens_open q _ _ _ _ []); [intros t m Hin; by apply elem_of_nil in Hin|]. intros r h1 u1 (_ & _ & Hr).
  assert (forall w, step (Query q) w = (match run_query w q with Ret l => Ret (OItems l) | Panic => Panic | UB => UB | Block => Block end, w)) as HS.
  { intros w. cbn [step]. unfold fmapM, bind, get, lift, ret. by destruct (run_query w q). }
  destruct r as [[J hs]| | |]; cbn [pass]; try done.
  - destruct Hr as (hd' & _ & Hr). cbn [fst snd] in *. apply lw_bind. apply (lw_act (fun _ => ids)); [done|]. intros w Hw. cbn [fst snd].
    eexists. rewrite HS. unfold run_query. rewrite (Hr w Hw). split; [reflexivity|]. split; [done|].
    destruct (collect _ w J (qi_init J)) as [l| | |]; cbn [pass]; try done; [|apply Qop_nil]. apply lw_rels. intros h2. apply lw_ret. apply (Qop_nil (Ret (OItems l))).
  - exists [(Query q, Panic)]. apply ghost_one. intros w Hw. rewrite HS. unfold run_query. specialize (Hr w Hw). destruct (query_open w q []) as [o hd']. cbn [fst] in Hr. by subst o.
Qed.
Lemma lw_query_mut q f ids h u : lw (Todo (QueryMut q f)) ids h u (p_call (QueryMut q f)) Qop.
Proof.
  cbn [p_call]. apply lw_bind. apply (opens_open q _ _ _ _ []); [intros t m Hin; by apply elem_of_nil in Hin|]. intros r h1 u1 (_ & _ & Hr).
  assert (forall w, step (QueryMut q f) w = (match (run_query_mut q f w).1 with Ret l => Ret (OItems l) | Panic => Panic | UB => UB | Block => Block end, (run_query_mut q f w).2)) as HS.
  { intros w. cbn [step]. unfold fmapM, bind, get, lift, ret. by destruct (run_query_mut q f w) as [[]]. }
  destruct r as [[J hs]| | |]; cbn [pass]; try done.
  - destruct Hr as (hd' & _ & Hr). cbn [fst snd] in *. apply lw_bind. apply (lw_act (fun _ => ids)); [done|]. intros w Hw.
    eexists. rewrite HS. unfold run_query_mut. rewrite (Hr w Hw). split; [reflexivity|]. split; [done|].
    destruct ((drive _ J f (qi_init J) w).1) as [l| | |]; cbn [pass]; try done; [|apply Qop_nil]. apply lw_rels. intros h2. apply lw_ret. apply (Qop_nil (Ret (OItems l))).
  - exists [(QueryMut q f, Panic)]. apply ghost_one. intros w Hw. rewrite HS. unfold run_query_mut. specialize (Hr w Hw). destruct (query_open w q []) as [o hd']. cbn [fst] in Hr. by subst o.
Qed.
Lemma lw_call o ids h u : calm w0 o -> lw (Todo o) ids h u (p_call o) Qop.
Proof.
  intros Hc. destruct o; try done; try (cbn [p_call]; by apply lw_via).
  - cbn [p_call]. apply lw_step_act; [done|]. intros w1 r w2 _ _. apply Qop_nil.
  - apply lw_create.
  - apply lw_creates.
  - apply lw_exist.
  - by apply lw_attach.
  - by apply lw_detach.
  - apply lw_query.
  - apply lw_query_mut.
Qed.

End lin.

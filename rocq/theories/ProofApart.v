(** Threads that keep to [minds] (SpecApart.v): what each of them is in the
    middle of, program by program. *)
From stdpp Require Import prelude list gmap sorting.
From Verif Require Import Base Api ModelSparse ModelEntity ModelGroup ModelWorld ModelQuery ModelStep ModelConc SpecConc
  Spec History SpecApart ProofSparse ProofEntity ProofGroup ProofWorld ProofOps ProofOps2 ProofRemove ProofMain ProofWf ProofConc ProofConc2 ProofConc3 ProofConc4 ProofConc5 ProofConc6 ProofConc7.

(** What a thread is in the middle of: attaching [t] to [e] with the groups
    [todo] still to be told; detaching [t] from [e] with the groups [gone]
    told; removing [e], knowing of some groups whether [e] is in them and of
    some types whether [e] has them. *)
Inductive doing : Type :=
| DNone
| DIn (t e : nat) (todo : list nat)
| DOut (t e : nat) (gone : list nat)
| DRem (e : nat) (G T : gmap nat bool).
(** and: its own entities, some kept ones it knows to be alive, the components
    of its own entities, the components it knows its own entities not to have *)
Record ghost (V : Type) : Type := Gh { g_mine : gset nat; g_known : gset nat; g_do : doing; g_has : nat -> nat -> option V; g_bare : nat -> nat -> bool }.
Arguments Gh {V}. Arguments g_mine {V}. Arguments g_known {V}. Arguments g_do {V}. Arguments g_has {V}. Arguments g_bare {V}.
Definition with_do {V} (d : doing) (g : ghost V) : ghost V := Gh (g_mine g) (g_known g) d (g_has g) (g_bare g).
Definition with_has {V} (f : nat -> nat -> option V) (g : ghost V) : ghost V := Gh (g_mine g) (g_known g) (g_do g) f (g_bare g).
Definition with_bare {V} (f : nat -> nat -> bool) (g : ghost V) : ghost V := Gh (g_mine g) (g_known g) (g_do g) (g_has g) f.
(** components set, overwritten, forgotten *)
Definition set_has {V} (t e : nat) (x : option V) (f : nat -> nat -> option V) : nat -> nat -> option V :=
  fun t' e' => if decide (t' = t /\ e' = e) then x else f t' e'.
Definition over {V} (t e : nat) (v : V) (f : nat -> nat -> option V) : nat -> nat -> option V :=
  fun t' e' => if decide (t' = t /\ e' = e) then match f t' e' with Some _ => Some v | None => None end else f t' e'.
Definition fill_has {V} (t lo hi : nat) (vs : list V) (f : nat -> nat -> option V) : nat -> nat -> option V :=
  fun t' e' => if decide (t' = t /\ lo <= e' < hi) then vs !! (e' - lo) else f t' e'.
Definition wipe {V} (ids : list nat) (f : nat -> nat -> option V) : nat -> nat -> option V :=
  fun t e => if decide (e ∈ ids) then None else f t e.
Definition idle_do (d : doing) : Prop := d = DNone \/ exists t e, d = DIn t e [].
Definition idle {V} (g : ghost V) : Prop := idle_do (g_do g).
Definition owes_do (d : doing) (i e : nat) : Prop :=
  match d with
  | DNone => False
  | DIn _ e' todo => e = e' /\ i ∈ todo
  | DOut _ e' gone => e = e' /\ i ∈ gone
  | DRem e' _ _ => e = e'
  end.
Definition owes {V} (g : ghost V) : nat -> nat -> Prop := owes_do (g_do g).
Lemma idle_owes {V} (g : ghost V) i e : idle g -> ~ owes g i e.
Proof. unfold idle, owes. intros [->|(t & e' & ->)]; simpl; [tauto|]. intros [_ H]. by apply elem_of_nil in H. Qed.
Definition outs {V} (g : ghost V) (t e : nat) (gone : list nat) : Prop :=
  g_do g = DOut t e gone \/ (idle g /\ gone = []).

Section apart.
Context {V : Type}.
Implicit Types (w : world V) (aw : aworld V) (h : list (lock * bool)) (g : ghost V).
Variables (w0 : world V) (shared kept : nat -> bool) (still : bool) (L0 : nat -> nat -> Prop) (clean : Prop).
Local Notation N := (n_groups w0).
Local Notation listed := (listed w0).
Local Notation with_ty := (with_ty w0).
Local Notation gain := (gain shared).

Definition knows_g aw (e : nat) (G : gmap nat bool) : Prop :=
  forall i b, G !! i = Some b -> forall ag, a_groups aw !! i = Some ag -> e ∈ ag_mem ag <-> b = true.
Definition knows_t aw (e : nat) (T : gmap nat bool) : Prop :=
  forall t b, T !! t = Some b -> hasc (a_comps aw) t e <-> b = true.
(** it knows the components of its own entities *)
Definition sees aw (g : ghost V) : Prop :=
  clean -> forall t e, e ∈ g_mine g -> ~ common w0 shared kept t e -> (forall G T, g_do g <> DRem e G T) -> alike still (comp aw t e) (g_has g t e).
Definition gwf aw (g : ghost V) : Prop :=
  (forall e, e ∈ g_known g -> kept e = true /\ live aw e) /\ sees aw g /\
  match g_do g with
  | DNone => True
  | DIn t e todo => todo = [] \/ e ∈ g_mine g \/ shared e = true
  | DOut t e gone => e ∈ g_mine g /\ forall i, i ∈ gone -> with_ty t i = true /\ forall ag, a_groups aw !! i = Some ag -> e ∉ ag_mem ag
  | DRem e G T => e ∈ g_mine g /\ kept e = false /\ no_inversion w0 /\ knows_g aw e G /\ knows_t aw e T
  end.
(** What holds of the shared world at all times. *)
Record WI (γ : nat -> ghost V) w aw : Prop := {
  wi_R : R w aw;
  wi_own : forall n e, e ∈ g_mine (γ n) -> live aw e;
  wi_sh : forall n e, e ∈ g_mine (γ n) -> shared e = false;
  wi_disj : forall n m e, e ∈ g_mine (γ n) -> e ∈ g_mine (γ m) -> n = m;
  wi_fresh : forall i ag, a_groups aw !! i = Some ag -> ag_fresh ag = false;
  wi_all : forall i ag e, a_groups aw !! i = Some ag -> both_has (a_comps aw) (ag_a ag) (ag_b ag) e = true -> e ∉ ag_mem ag ->
    L0 i e \/ exists n, owes (γ n) i e;
  wi_ghost : forall n, gwf aw (γ n);
  wi_dead : clean -> forall t e, ~ common w0 shared kept t e -> ~ live aw e -> ~ hasc (a_comps aw) t e;
  wi_new : forall t e, ~ common w0 shared kept t e -> ~ allocated aw e -> ~ hasc (a_comps aw) t e;
  wi_bare : forall n t e, g_bare (γ n) t e = true -> e ∈ g_mine (γ n) -> ~ common w0 shared kept t e -> ~ hasc (a_comps aw) t e
}.

(** how pieces of work move it *)
Definition newid aw : nat := match a_free aw with f :: _ => f | [] => S (a_next aw) end.
Definition learn (ids : list nat) (f : (nat -> nat -> bool) -> nat -> nat -> bool) (g : ghost V) : ghost V :=
  Gh (gain ids (g_mine g)) (g_known g ∪ list_to_set (filter (fun id => shared id = true) ids)) DNone (wipe ids (g_has g)) (f (g_bare g)).
Definition trans aw (lab : label V) (g g' : ghost V) : Prop :=
  match lab with
  | BRead => g' = g \/ exists e G T, (idle g \/ exists G0 T0, g_do g = DRem e G0 T0) /\ g' = with_do (DRem e G T) g /\ gwf aw g'
  | BWrite => still = false /\ g' = g
  | BSet (WriteComp t e v) | BSet (StoreGetMut t e v) => idle g /\ (still = true -> may_attach w0 shared kept (g_mine g) t e) /\ g' = with_has (over t e v (g_has g)) g
  | BSet (StoreDataSet _ _ _) => still = false /\ g' = g
  | BSet (WriteRes _ _) => g' = g
  | BSet _ => False
  | BNew => idle g /\ g' = learn [newid aw] (unsure (newid aw)) g
  | BAlloc n => idle g /\ g' = learn (seq (S (a_next aw)) n) (blank (S (a_next aw)) (S (a_next aw) + n)) g
  | BPut t e v => idle g /\ may_attach w0 shared kept (g_mine g) t e /\ has_registered t w0 = true /\
      g' = with_do (DIn t e (listed t 0 N)) (with_has (set_has t e (Some v) (g_has g)) (with_bare (filled t e (S e) (g_bare g)) g))
  | BAdd i e => exists t todo, g_do g = DIn t e (i :: todo) /\ g' = with_do (DIn t e todo) g
  | BLeave i e => e ∈ g_mine g /\ exists t gone, outs g t e gone /\ with_ty t i = true /\ g' = with_do (DOut t e (i :: gone)) g
  | BTake t e => may_detach w0 kept (g_mine g) t e /\ exists gone, outs g t e gone /\ (forall i, i ∈ listed t 0 N -> i ∈ gone) /\
      g' = with_do DNone (with_has (set_has t e None (g_has g)) g)
  | BKill i e => exists G, g_do g = DRem e G ∅ /\ i < N /\ G !! i = Some true /\ (forall j, j < i -> G !! j = Some false) /\
      g' = with_do (DRem e (<[i := false]> G) ∅) g
  | BDrop t e => exists G T, g_do g = DRem e G T /\ (forall i, i < N -> G !! i = Some false) /\ T !! t = Some true /\
      g' = with_do (DRem e G (<[t := false]> T)) g
  | BFree e => exists G T, g_do g = DRem e G T /\ (forall i, i < N -> G !! i = Some false) /\
      (forall t, has_registered t w0 = true -> T !! t = Some false) /\ g' = Gh (g_mine g ∖ {[e]}) (g_known g) DNone (g_has g) (g_bare g)
  | BBatch t lo hi vs => idle g /\ may_batch w0 shared kept (g_mine g) (g_bare g) t lo hi /\ has_registered t w0 = true /\ length vs = hi - lo /\
      g' = with_has (fill_has t lo hi vs (g_has g)) (with_bare (filled t lo hi (g_bare g)) g)
  end.

(** What thread [n] knows of the world. *)
Definition okw (n : nat) (g : ghost V) w aw : Prop := same_shape w0 w /\ exists γ, WI γ w aw /\ γ n = g.

Fixpoint proto (n : nat) (g : ghost V) {A} (p : prog V A) (Q : ghost V -> A -> Prop) (P : ghost V -> Prop) : Prop :=
  match p with
  | PRet a => Q g a
  | PPanic => P g
  | PUB => True
  | PHang => True
  | PAcq _ _ k => proto n g k Q P
  | PRel _ _ k => proto n g k Q P
  | PAct lab f k => forall w aw, okw n g w aw -> exists g', trans aw lab g g' /\
      match (f w).1 with
      | Ret b => proto n g' (k b) Q P
      | Panic => P g'
      | _ => True
      end
  end.
Lemma proto_mono n g {A} (p : prog V A) (Q Q' : ghost V -> A -> Prop) (P P' : ghost V -> Prop) :
  (forall g' a, Q g' a -> Q' g' a) -> (forall g', P g' -> P' g') -> proto n g p Q P -> proto n g p Q' P'.
Proof.
  intros HQ HP. revert g. induction p as [a| | | |l x k IH|l x k IH|B lab f k IH]; intros g; simpl; auto.
  intros H w aw Hw. destruct (H w aw Hw) as (g' & Ht & H'). exists g'. split; [done|]. destruct ((f w).1); auto.
Qed.
Lemma proto_bind n g {A B} (p : prog V A) (k : A -> prog V B) Q P :
  proto n g p (fun g' a => proto n g' (k a) Q P) P -> proto n g (pbind p k) Q P.
Proof.
  revert g. induction p as [a| | | |l x kk IH|l x kk IH|C lab f kk IH]; intros g; simpl; auto.
  intros H w aw Hw. destruct (H w aw Hw) as (g' & Ht & H'). exists g'. split; [done|]. destruct ((f w).1); auto.
Qed.
Lemma proto_rels n g {A} hs (p : prog V A) Q P : proto n g p Q P -> proto n g (rels hs p) Q P.
Proof. intros H. induction hs as [|[l x] hs IH]; [done|]. exact IH. Qed.
Lemma proto_act n g {B} lab (f : M (world V) B) Q (P : ghost V -> Prop) :
  (forall w aw, okw n g w aw -> exists g', trans aw lab g g' /\ match (f w).1 with Ret b => Q g' b | Panic => P g' | _ => True end) -> proto n g (act lab f) Q P.
Proof. intros H w aw Hw. destruct (H w aw Hw) as (g' & Ht & H'). exists g'. split; [done|]. by destruct ((f w).1). Qed.
(** Panics are caught. *)
Lemma proto_catch n {A B} (p : prog V A) (k : outcome A -> list (lock * bool) -> prog V B) QF PF (P : ghost V -> Prop) : forall g mine,
  proto n g p (fun g' a => forall m, proto n g' (k (Ret a) m) QF PF) P ->
  (forall g', P g' -> proto n g' (k Panic []) QF PF) ->
  proto n g (catch mine p k) QF PF.
Proof.
  induction p as [a| | | |l x kk IH|l x kk IH|C lab f kk IH]; intros g mine H HP; simpl in *; auto.
  - apply proto_rels. auto.
  - intros w aw Hw. destruct (H w aw Hw) as (g' & Ht & H'). exists g'. split; [done|].
    destruct (f w) as [[b| | |] w']; simpl in *; auto. apply proto_rels. auto.
Qed.

(** Programs that only read and write values (not those of one component). *)
Definition calm_lab (lab : label V) : Prop :=
  match lab with
  | BRead | BSet (WriteRes _ _) => True
  | BWrite | BSet (StoreDataSet _ _ _) => still = false
  | _ => False
  end.
Fixpoint quiet {A} (p : prog V A) : Prop :=
  match p with
  | PAcq _ _ k | PRel _ _ k => quiet k
  | PAct lab f k => calm_lab lab /\ forall b, quiet (k b)
  | _ => True
  end.
Lemma quiet_bind {A B} (p : prog V A) (k : A -> prog V B) : quiet p -> (forall a, quiet (k a)) -> quiet (pbind p k).
Proof. intros H Hk. induction p; simpl in *; auto. destruct H as [H1 H2]. auto. Qed.
Lemma quiet_rels {A} hs (p : prog V A) : quiet p -> quiet (rels hs p).
Proof. intros H. induction hs as [|[l x] hs IH]; [done|]. exact IH. Qed.
Lemma calm_trans aw lab g : calm_lab lab -> trans aw lab g g.
Proof. destruct lab as [| | | | | | | | | | | |[]]; try done; by left. Qed.
Lemma proto_quiet n g {A} (p : prog V A) (P : ghost V -> Prop) : quiet p -> P g -> proto n g p (fun g' _ => g' = g) P.
Proof.
  intros Hq Hi. induction p as [a| | | |l x k IH|l x k IH|B lab f k IH]; simpl in *; auto.
  destruct Hq as [H1 H2]. intros w aw _. exists g. split; [by apply calm_trans|]. destruct ((f w).1); auto.
Qed.
Lemma proto_quiet' n g {A} (p : prog V A) (Q : ghost V -> A -> Prop) (P : ghost V -> Prop) : quiet p -> P g -> (forall a, Q g a) -> proto n g p Q P.
Proof. intros H1 H2 H3. eapply proto_mono; [| |by apply proto_quiet]; [intros g' a ->; done|done]. Qed.
Lemma quiet_passert b : quiet (passert (V := V) b).
Proof. by destruct b. Qed.
Lemma quiet_punwrap {A} (o : option A) : quiet (punwrap (V := V) o).
Proof. by destruct o. Qed.
Lemma quiet_find k a b i m : quiet (p_find_group (V := V) k a b i m).
Proof. revert i. induction m as [|m IH]; intros i; simpl; [done|]. split; [done|]. intros x. by destruct (bool_decide _). Qed.
Lemma quiet_act {B} lab (f : M (world V) B) : calm_lab lab -> quiet (act lab f).
Proof. done. Qed.
Ltac qt := first [done | apply quiet_passert | apply quiet_punwrap | apply quiet_find | assumption].
Lemma quiet_open q : quiet (p_open (V := V) q).
Proof.
  induction q; cbn [p_open]; unfold p_ref, p_open_group; repeat (apply quiet_bind; [qt|intros ?]); try done. by destruct k.
Qed.
Lemma quiet_via l x lab there o : calm_lab lab -> quiet (via_guard (V := V) l x lab there o).
Proof. intros H. apply quiet_bind; [done|]. intros []; [|done]. repeat (apply quiet_bind; [done|intros ?]). done. Qed.

(** ** Attach, detach *)
Lemma okw_head n g w aw i : okw n g w aw -> group_head i w = group_head i w0.
Proof. intros [Hs _]. symmetry. apply (sh_groups _ _ Hs). Qed.
Lemma okw_has n g w aw t : okw n g w aw -> has_registered t w = has_registered t w0.
Proof. intros [Hs _]. symmetry. by apply shape_has. Qed.
Lemma okw_R n g w aw : okw n g w aw -> R w aw.
Proof. intros [_ (γ & H & _)]. apply H. Qed.
Lemma okw_gwf n g w aw : okw n g w aw -> gwf aw g.
Proof. intros [_ (γ & H & <-)]. apply H. Qed.
Lemma okw_live n g w aw e : okw n g w aw -> e ∈ g_mine g \/ e ∈ g_known g -> live aw e.
Proof. intros [_ (γ & H & <-)] [He|He]; [by eapply wi_own|]. apply (wi_ghost _ _ _ H n) in He. apply He. Qed.
Lemma live_exist w aw e : R w aw -> live aw e -> exist e w = Ret true.
Proof.
  intros H [[H1 H2] H3]. rewrite (exist_spec _ _ e H) by lia. unfold a_exist. rewrite decide_False by (unfold allocated in *; lia).
  f_equal. apply bool_decide_eq_true. by left.
Qed.
Lemma proto_look n g {B} (f : world V -> B) b (Q : ghost V -> B -> Prop) P : (forall w aw, okw n g w aw -> f w = b) -> Q g b -> proto n g (look f) Q P.
Proof. intros H HQ w aw Hw. exists g. split; [by left|]. simpl. by rewrite (H w aw Hw). Qed.
Lemma proto_ngroups n g (Q : ghost V -> nat -> Prop) P : Q g N -> proto n g (look n_groups) Q P.
Proof. apply proto_look. intros w aw [Hs _]. symmetry. by apply (shape_len _ _ Hs). Qed.
Lemma proto_groups n g t i m (Q : ghost V -> list nat -> Prop) P : Q g (listed t i m) -> proto n g (p_groups t i m) Q P.
Proof.
  revert i Q. induction m as [|m IH]; intros i Q HQ; [done|]. cbn [p_groups]. rewrite listed_cons in HQ.
  apply proto_bind. cbn [acq proto]. apply proto_bind. eapply proto_look; [intros w aw Hw; by eapply okw_head|].
  apply proto_bind. cbn [rel proto].
  change (match group_head i w0 with Some (_, a, b) => (a =? t) || (b =? t) | None => false end) with (with_ty t i).
  destruct (with_ty t i).
  - apply proto_bind. cbn [acq proto]. apply proto_bind, IH. exact HQ.
  - by apply IH.
Qed.
(** a shared world has groups whose types are registered *)
Hypothesis (Hw0 : forall i k a b, group_head i w0 = Some (k, a, b) -> has_registered a w0 = true /\ has_registered b w0 = true).
Hypothesis (Hsk : forall e, shared e = true -> kept e = true).
Lemma proto_storage n g t x (Q : ghost V -> unit -> Prop) P : has_registered t w0 = true -> Q g tt -> proto n g (p_storage t x) Q P.
Proof.
  intros Ht HQ. apply proto_bind. eapply proto_look; [intros w aw Hw; by eapply okw_has|]. rewrite Ht. exact HQ.
Qed.
Lemma head_lt i : i < N -> exists k a b, group_head i w0 = Some (k, a, b) /\ has_registered a w0 = true /\ has_registered b w0 = true.
Proof.
  intros Hi. destruct (group_head i w0) as [[[k a] b]|] eqn:E.
  - exists k, a, b. split; [done|]. by eapply Hw0.
  - unfold group_head in E. unfold n_groups in Hi. apply lookup_lt_is_Some_2 in Hi as [gr Hg]. rewrite Hg in E. by destruct gr.
Qed.
Lemma proto_group_at n g i lab ff fp fn (Q : ghost V -> unit -> Prop) P : i < N ->
  (forall w aw, okw n g w aw -> exists g', trans aw lab g g' /\ (run_group_at i ff fp fn w).1 = Ret tt /\ Q g' tt) ->
  proto n g (p_group_at (V := V) i lab ff fp fn) Q P.
Proof.
  intros Hi Hr. apply proto_bind. eapply proto_look; [intros w aw Hw; by eapply okw_head|].
  destruct (head_lt i Hi) as (k & a & b & E & Ha & Hb). rewrite E.
  cbn [punwrap pbind]. apply proto_bind, proto_storage; [done|]. apply proto_bind, proto_storage; [done|].
  apply proto_bind. apply proto_act. intros w aw Hw. destruct (Hr w aw Hw) as (g' & H1 & H2 & H3). exists g'. split; [done|]. rewrite H2. exact H3.
Qed.
Lemma okw_group n g w aw i : okw n g w aw -> i < N -> exists gr ag, w_groups w !! i = Some gr /\ a_groups aw !! i = Some ag /\ gok (w_comps w) gr ag.
Proof.
  intros Hw Hi. pose proof (okw_R _ _ _ _ Hw) as H. destruct Hw as [Hs _]. assert (exists gr, w_groups w !! i = Some gr) as [gr Hg].
  { apply lookup_lt_is_Some_2. pose proof (shape_len _ _ Hs). unfold n_groups in *. lia. }
  destruct (Forall2_lookup_l _ _ _ _ _ (R_gr _ _ H) Hg) as (ag & Hag & Hok). eauto.
Qed.
Lemma okw_add n g w aw i id : okw n g w aw -> i < N -> (run_group_at i (full_add id) (part_add id) (non_add id) w).1 = Ret tt.
Proof.
  intros Hw Hi. pose proof (okw_R _ _ _ _ Hw) as H. destruct (okw_group _ _ _ _ i Hw Hi) as (gr & ag & Hg & Hag & Hok).
  destruct (run_add w _ _ i gr ag id (R_st _ _ H) Hg Hok) as (cs' & g' & E & _). by rewrite E.
Qed.
Lemma okw_remove n g w aw i id : okw n g w aw -> i < N -> (run_group_at i (full_remove id) (part_remove id) (non_remove id) w).1 = Ret tt.
Proof.
  intros Hw Hi. pose proof (okw_R _ _ _ _ Hw) as H. destruct (okw_group _ _ _ _ i Hw Hi) as (gr & ag & Hg & Hag & Hok).
  destruct (run_remove w _ _ i gr ag id (R_st _ _ H) Hg Hok) as (cs' & g' & E & _). by rewrite E.
Qed.
Lemma with_do_twice d d' g : with_do d (with_do d' g) = with_do d g.
Proof. done. Qed.
Lemma with_do_same g : with_do (g_do g) g = g.
Proof. by destruct g. Qed.
Lemma proto_each_add n t e gs g (Q : ghost V -> unit -> Prop) P : (forall i, i ∈ gs -> i < N) -> Q (with_do (DIn t e []) g) tt ->
  proto n (with_do (DIn t e gs) g) (p_each_group (V := V) gs (fun i => BAdd i e) (full_add e) (part_add e) (non_add e)) Q P.
Proof.
  intros Hgs HQ. unfold p_each_group. induction gs as [|i gs IH]; [done|]. cbn [pfor]. apply proto_bind, proto_bind.
  apply proto_group_at; [apply Hgs; left|]. intros w aw Hw. exists (with_do (DIn t e gs) g). split; [by eexists _, _|]. split.
  - eapply okw_add; [done|]. apply Hgs. left.
  - cbn [rel proto]. apply IH. intros j Hj. apply Hgs. by right.
Qed.
Lemma proto_each_leave n t e gs g0 gone g (Q : ghost V -> unit -> Prop) P : (forall i, i ∈ gs -> i < N /\ with_ty t i = true) -> e ∈ g_mine g0 \/ gs = [] ->
  (exists d, g = with_do d g0) ->
  outs g t e gone -> (forall g' gone', (exists d, g' = with_do d g0) -> outs g' t e gone' -> (forall i, i ∈ gs -> i ∈ gone') -> (forall i, i ∈ gone -> i ∈ gone') -> Q g' tt) ->
  proto n g (p_each_group (V := V) gs (fun i => BLeave i e) (full_remove e) (part_remove e) (non_remove e)) Q P.
Proof.
  intros Hgs Ho Hd Hg HQ. unfold p_each_group. revert g gone Hd Hg HQ. induction gs as [|i gs IH]; intros g gone Hd Hg HQ.
  { cbn. eapply HQ; [done|done|by intros i ?%elem_of_nil|done]. }
  destruct Ho as [Ho|[=]]. cbn [pfor]. apply proto_bind, proto_bind. destruct (Hgs i) as [Hi Ht]; [left|].
  apply proto_group_at; [done|]. intros w aw Hw. exists (with_do (DOut t e (i :: gone)) g). split; [|split].
  - split; [by destruct Hd as [d ->]|]. by eexists _, _.
  - by eapply okw_remove.
  - cbn [rel proto]. eapply (IH _ (or_introl Ho) _ (i :: gone)).
    + destruct Hd as [d ->]. by eexists.
    + by left.
    + intros g' gone' H0 H1 H2 H3. eapply HQ; [done|done| |].
      * intros j [->|Hj]%elem_of_cons; [apply H3; left|by apply H2].
      * intros j Hj. apply H3. by right.
  Unshelve. intros j Hj. apply Hgs. by right.
Qed.
Lemma listed_lt t i : i ∈ listed t 0 N -> i < N /\ with_ty t i = true.
Proof. rewrite listed_elem. intros [? ?]. split; [lia|done]. Qed.
Lemma ungrouped_listed t : ungrouped w0 t -> listed t 0 N = [].
Proof.
  intros Hu. destruct (listed t 0 N) as [|i l] eqn:E; [done|]. assert (i ∈ listed t 0 N) as H by (rewrite E; left).
  apply listed_elem in H as [H _]. unfold ProofConc6.with_ty in H. destruct (group_head i w0) as [[[k a] b]|] eqn:Eh; [|done].
  destruct (Hu i k a b Eh). apply orb_true_iff in H as [H|H]; by apply Nat.eqb_eq in H.
Qed.
(** the same but for what is being done and the component [t] of [id]; and
    nothing is being done *)
Definition mid (t id : nat) (b : nat -> nat -> bool) (g g' : ghost V) : Prop :=
  idle g' /\ g_mine g' = g_mine g /\ g_bare g' = b /\ forall u e, ~ (u = t /\ e = id) -> g_has g' u e = g_has g u e.
Lemma mid_refl t id g : idle g -> mid t id (g_bare g) g g.
Proof. done. Qed.
(** the thread knows whether its own entity [id] has [t] *)
Definition private t id g : Prop := clean /\ id ∈ g_mine g /\ ~ common w0 shared kept t id.
Lemma alike_refl (x : option V) : alike still x x.
Proof. done. Qed.
Lemma alike_sym (x y : option V) : alike still x y -> alike still y x.
Proof. intros [H1 H2]. split; [by rewrite H1|]. intros Hs. by rewrite H2. Qed.
Lemma alike_trans (x y z : option V) : alike still x y -> alike still y z -> alike still x z.
Proof. intros [H1 H2] [H3 H4]. split; [by rewrite H1|]. intros Hs. by rewrite H2, H4. Qed.
Lemma alike_None (x : option V) : alike still None x -> x = None.
Proof. intros [H _]. destruct x; [|done]. destruct (proj2 H (mk_is_Some _ _ eq_refl)). done. Qed.
Lemma okw_sees n g w aw t e : okw n g w aw -> private t e g -> (forall G T, g_do g <> DRem e G T) -> alike still (comp aw t e) (g_has g t e).
Proof. intros Hw (H1 & H2 & H3) Hd. apply okw_gwf in Hw as (_ & H & _). by apply H. Qed.
Lemma idle_not_rem g e : idle g -> forall G T, g_do g <> DRem e G T.
Proof. intros [H|(t & x & H)] G T; by rewrite H. Qed.
Lemma unreg_comp n g w aw t e : okw n g w aw -> has_registered t w0 = false -> comp aw t e = None.
Proof.
  intros Hw Ht. rewrite <- (okw_has _ _ _ _ t Hw) in Ht. apply bool_decide_eq_false, eq_None_not_Some in Ht.
  pose proof (R_st _ _ (okw_R _ _ _ _ Hw) t) as S. rewrite Ht in S. unfold comp. by destruct (a_comps aw !! t).
Qed.
Lemma set_has_same t id (x : option V) f : set_has t id x f t id = x.
Proof. unfold set_has. by rewrite decide_True. Qed.
Lemma set_has_other t id (x : option V) f u e : ~ (u = t /\ e = id) -> set_has t id x f u e = f u e.
Proof. intros H. unfold set_has. by rewrite decide_False. Qed.
Lemma proto_look' n g {B} (f : world V -> B) (Q : ghost V -> B -> Prop) P : (forall w aw, okw n g w aw -> Q g (f w)) -> proto n g (look f) Q P.
Proof. intros H w aw Hw. exists g. split; [by left|]. simpl. by apply (H w aw). Qed.
Lemma proto_handle_attach n g t id v (Q : ghost V -> unit -> Prop) (P : ghost V -> Prop) : idle g -> may_attach w0 shared kept (g_mine g) t id ->
  (has_registered t w0 = false -> P g) -> (forall g', mid t id (filled t id (S id) (g_bare g)) g g' -> g_has g' t id = Some v -> Q g' tt) -> proto n g (p_handle_attach t id v) Q P.
Proof.
  intros Hg Hm HP HQ. apply proto_bind. eapply proto_look; [intros w aw Hw; by eapply okw_has|]. destruct (has_registered t w0) eqn:Ht; [|by apply HP].
  cbn [passert pbind acq]. cbn [proto]. intros w aw Hw. exists (with_do (DIn t id (listed t 0 N)) (with_has (set_has t id (Some v) (g_has g)) (with_bare (filled t id (S id) (g_bare g)) g))). split; [done|].
  pose proof (okw_R _ _ _ _ Hw) as H. destruct Hw as [Hs _]. rewrite (shape_has _ _ t Hs) in Ht. apply bool_decide_eq_true in Ht as [st Hst].
  destruct (srel_Some_r _ _ _ _ _ (R_st _ _ H) Hst) as (m & Hm' & Ty & Rt).
  destruct (add_rep id v _ _ _ Rt) as (s' & Es & _). unfold storage_mut. rewrite Hst, Ty, Nat.eqb_refl, Es. cbn [fst].
  cbn [rel pbind proto]. apply proto_bind, proto_ngroups.
  apply proto_bind, proto_groups. apply proto_each_add; [intros i Hi; by destruct (listed_lt _ _ Hi)|]. apply HQ.
  - split; [right; by eexists _, _|]. do 2 (split; [done|]). intros u e Hne. by apply set_has_other.
  - apply set_has_same.
Qed.
Lemma proto_handle_detach n g t id (Q : ghost V -> option V -> Prop) (P : ghost V -> Prop) : idle g -> may_detach w0 kept (g_mine g) t id ->
  (forall g', mid t id (g_bare g) g g' -> (private t id g -> g_has g t id = None /\ g_has g' t id = None) -> P g') ->
  (forall g' r, mid t id (g_bare g) g g' -> g_has g' t id = None -> (private t id g -> alike still r (g_has g t id)) -> Q g' r) -> proto n g (p_handle_detach t id) Q P.
Proof.
  intros Hg Hm HP HQ. apply proto_bind. apply proto_look'. intros w0' aw0 Hw0'. rewrite (okw_has _ _ _ _ t Hw0'). destruct (has_registered t w0) eqn:Ht.
  2:{ apply HP; [by apply mid_refl|]. intros Hp. pose proof (okw_sees _ _ _ _ t id Hw0' Hp (idle_not_rem _ _ Hg)) as Ha. rewrite (unreg_comp _ _ _ _ t id Hw0' Ht) in Ha.
      by apply alike_None in Ha. }
  cbn [passert pbind]. apply proto_bind, proto_ngroups.
  apply proto_bind, proto_groups. apply proto_bind. eapply (proto_each_leave _ t _ _ g []); [intros i Hi; by apply listed_lt in Hi| | |by right|].
  { destruct Hm as [Ho|[_ Hu]]; [by left|right; by apply ungrouped_listed]. }
  { exists (g_do g). by rewrite with_do_same. }
  intros g' gone [d Hd] H1 H2 _. cbn [acq pbind proto]. apply proto_bind. apply proto_act. intros w aw Hw.
  exists (with_do DNone (with_has (set_has t id None (g_has g')) g')). split.
  { split; [by rewrite Hd|]. by exists gone. }
  assert (mid t id (g_bare g) g (with_do DNone (with_has (set_has t id None (g_has g')) g'))) as Hmid.
  { split; [by left|]. rewrite Hd. do 2 (split; [done|]). intros u e Hne. by apply set_has_other. }
  assert (private t id g -> alike still (comp aw t id) (g_has g t id)) as Hal.
  { intros Hp. assert (g_has g = g_has g') as -> by (by rewrite Hd). eapply okw_sees; [done|by rewrite Hd|].
    destruct H1 as [H1|[H1 _]]; [by rewrite H1|]. by apply idle_not_rem. }
  pose proof (okw_R _ _ _ _ Hw) as HR. rewrite <- (okw_has _ _ _ _ t Hw) in Ht. apply bool_decide_eq_true in Ht as [st Hst].
  destruct (srel_Some_r _ _ _ _ _ (R_st _ _ HR) Hst) as (m & Hm' & Ty & Rt). unfold comp in Hal. rewrite Hm' in Hal. simpl in Hal.
  unfold storage_mut. rewrite Hst, Ty, Nat.eqb_refl. destruct (m !! id) as [v|] eqn:Hv.
  - destruct (remove_rep id _ _ _ v Rt Hv) as (s' & i & el & Es & _). rewrite Es. cbn [fst]. apply HQ; [done|apply set_has_same|done].
  - rewrite (remove_rep_None _ _ _ _ Rt Hv). case_decide; cbn [fst].
    + apply HP; [done|]. intros Hp. split; [by apply alike_None, Hal|apply set_has_same].
    + apply HQ; [done|apply set_has_same|done].
Qed.

Lemma okw_bare n g w aw t e : okw n g w aw -> g_bare g t e = true -> e ∈ g_mine g -> ~ common w0 shared kept t e -> ~ hasc (a_comps aw) t e.
Proof. intros [_ (γ & H & <-)]. apply H. Qed.
Lemma proto_batch n g t lo hi vs (Q : ghost V -> unit -> Prop) (P : ghost V -> Prop) : idle g -> may_batch w0 shared kept (g_mine g) (g_bare g) t lo hi ->
  P g -> (forall g', idle g' -> g_mine g' = g_mine g -> g_bare g' = filled t lo hi (g_bare g) -> Q g' tt) -> proto n g (p_batch lo hi t vs) Q P.
Proof.
  intros Hg Hm HP HQ. unfold p_batch. destruct (Nat.eqb_spec (length vs) (hi - lo)) as [Hl|Hl]; [|by apply HP]. cbn [passert pbind].
  apply proto_bind. unfold p_storage. apply proto_bind. eapply proto_look; [intros w aw Hw; by eapply okw_has|]. destruct (has_registered t w0) eqn:Ht; [|by apply HP].
  cbn [passert pbind acq proto]. apply proto_bind, proto_act. intros w aw Hw. exists (with_has (fill_has t lo hi vs (g_has g)) (with_bare (filled t lo hi (g_bare g)) g)). split; [done|].
  pose proof (okw_R _ _ _ _ Hw) as HR. pose proof Ht as Ht'. rewrite <- (okw_has _ _ _ _ t Hw) in Ht'. apply bool_decide_eq_true in Ht' as [st Hst].
  destruct (srel_Some_r _ _ _ _ _ (R_st _ _ HR) Hst) as (m & Hm' & Ty & Rt).
  destruct (batch_spec w aw lo hi t vs HR) as (w' & E & _); [by exists m|done| |].
  { intros id Hid. destruct (Hm id Hid) as (H1 & H2 & H3 & _). destruct (comp aw t id) eqn:Ec; [|done]. destruct (okw_bare _ _ _ _ _ _ Hw H3 H1 H2). exists v. exact Ec. }
  unfold entities_attach in E. rewrite bind_assert_true in E by (by apply Nat.eqb_eq). rewrite E. cbn [fst rel proto]. by apply HQ.
Qed.

(** ** Entities *)
Lemma quiet_exist id : quiet (p_exist (V := V) id).
Proof. done. Qed.
Lemma quiet_entity id : quiet (p_entity (V := V) id).
Proof. unfold p_entity. apply quiet_bind; [done|]. intros _. apply quiet_bind; [done|]. by intros []. Qed.
Lemma proto_entity n g id (Q : ghost V -> bool -> Prop) P : id ∈ g_mine g \/ id ∈ g_known g -> Q g true -> proto n g (p_entity id) Q P.
Proof.
  intros Hid HQ. unfold p_entity. cbn [acq pbind proto]. apply proto_bind, proto_act. intros w aw Hw. exists g. split; [by left|].
  rewrite (live_exist w aw id) by first [by eapply okw_live|by eapply okw_R]. exact HQ.
Qed.
Lemma proto_exist n g id (Q : ghost V -> bool -> Prop) P : id ∈ g_mine g \/ id ∈ g_known g -> Q g true -> proto n g (p_exist id) Q P.
Proof.
  intros Hid HQ. unfold p_exist. cbn [acq pbind proto]. apply proto_bind, proto_act. intros w aw Hw. exists g. split; [by left|].
  rewrite (live_exist w aw id) by first [by eapply okw_live|by eapply okw_R]. exact HQ.
Qed.
Lemma gain_new (ids : list nat) f g id : id ∈ ids -> id ∈ g_mine (learn ids f g) \/ id ∈ g_known (learn ids f g).
Proof.
  intros H. unfold learn, SpecApart.gain. simpl. destruct (shared id) eqn:E; [right|left]; apply elem_of_union_r, elem_of_list_to_set, elem_of_list_filter; done.
Qed.
Lemma proto_new_entity n g (Q : ghost V -> nat -> Prop) P : idle g ->
  (forall g' id, idle g' -> id <> 0 -> id ∉ g_mine g -> g_mine g' = gain [id] (g_mine g) -> g_has g' = wipe [id] (g_has g) -> g_bare g' = unsure id (g_bare g) -> Q g' id) -> proto n g p_new_entity Q P.
Proof.
  intros Hg HQ. unfold p_new_entity. cbn [acq pbind proto]. apply proto_bind, proto_act. intros w aw Hw. pose proof (okw_R _ _ _ _ Hw) as H.
  destruct (em_allocate_spec _ _ _ (R_em _ _ H)) as (e' & E & _). unfold on_em. rewrite E. cbn [fst].
  exists (learn [newid aw] (unsure (newid aw)) g). split; [done|]. cbn [rel pbind proto]. fold (newid aw).
  apply proto_bind, proto_entity; [apply gain_new; left|]. cbn [passert pbind proto]. apply HQ; [by left| | |done|done|done].
  - unfold newid. destruct (a_free aw) as [|f l] eqn:Ef; [done|]. assert (f ∈ a_free aw) as Hf by (rewrite Ef; left).
    assert (1 <= f <= a_next aw); [|lia]. apply (er_elem _ _ _ f (R_em _ _ H)). by right.
  - intros Hn. pose proof (okw_live _ _ _ _ _ Hw (or_introl Hn)) as [[H1 H2] H3]. unfold newid in *. destruct (a_free aw) as [|f l]; [lia|]. apply H3. left.
Qed.
Lemma proto_new_entities n g m (Q : ghost V -> nat * nat -> Prop) P : idle g ->
  (forall g' lo, idle g' -> lo <> 0 -> (forall id, lo <= id < lo + m -> id ∉ g_mine g) -> g_mine g' = gain (seq lo m) (g_mine g) -> g_has g' = wipe (seq lo m) (g_has g) -> g_bare g' = blank lo (lo + m) (g_bare g) -> Q g' (lo, lo + m)) ->
  proto n g (p_new_entities m) Q P.
Proof.
  intros Hg HQ. unfold p_new_entities. cbn [acq pbind proto]. apply proto_bind, proto_act. intros w aw Hw. pose proof (okw_R _ _ _ _ Hw) as H.
  destruct (em_allocate_n_spec _ _ _ m (R_em _ _ H)) as (e' & E & _). unfold on_em. rewrite E. cbn [fst].
  exists (learn (seq (S (a_next aw)) m) (blank (S (a_next aw)) (S (a_next aw) + m)) g). split; [done|]. cbn [rel acq pbind proto].
  apply HQ; [by left|lia| |done|done|done]. intros id Hid Hn. pose proof (okw_live _ _ _ _ _ Hw (or_introl Hn)) as [[H1 H2] H3]. lia.
Qed.

(** ** Removing an entity *)
Lemma StronglySorted_cons_lt i l : (forall j, j ∈ l -> i < j) -> StronglySorted lt l -> StronglySorted lt (i :: l).
Proof. intros H1 H2. constructor; [done|]. apply Forall_forall. auto. Qed.
Lemma rem_gwf n g w aw e G T : okw n g w aw -> g_do g = DRem e G T -> e ∈ g_mine g /\ kept e = false /\ no_inversion w0 /\ knows_g aw e G /\ knows_t aw e T.
Proof. intros Hw E. apply okw_gwf in Hw as (_ & _ & Hw). by rewrite E in Hw. Qed.
Lemma rem_known n g w aw e G0 T0 G T : okw n g w aw -> (idle g \/ g_do g = DRem e G0 T0) -> e ∈ g_mine g -> kept e = false -> no_inversion w0 -> knows_g aw e G -> knows_t aw e T ->
  gwf aw (with_do (DRem e G T) g).
Proof.
  intros Hw Hd He Hk Hni HG HT. destruct (okw_gwf _ _ _ _ Hw) as (K & S & _). split; [exact K|]. split; [|done].
  intros Hc t x Hx Hn Hx'. apply S; [done|done|done|]. intros G' T' E'. destruct Hd as [Hd|Hd].
  - by eapply idle_not_rem.
  - apply (Hx' G T). cbn. rewrite Hd in E'. by injection E' as -> _ _.
Qed.
Lemma in_group_spec n g w aw i e ag : okw n g w aw -> a_groups aw !! i = Some ag -> in_group_at i e w = Ret (bool_decide (e ∈ ag_mem ag)).
Proof.
  intros Hw Hi. pose proof (okw_R _ _ _ _ Hw) as H. destruct (Forall2_lookup_r _ _ _ _ _ (R_gr _ _ H) Hi) as (gr & Hg & Hok). unfold in_group_at. rewrite Hg.
  rewrite (gstat_types _ _ (gok_stat _ _ _ Hok)). destruct (gok_dyn _ _ _ Hok) as (sa & sb & Ha & Hb & _). rewrite Ha, Hb.
  exact (g_in_group_spec _ _ _ _ _ _ _ e (R_st _ _ H) Hok Ha Hb).
Qed.
Lemma proto_find_in n e g (P : ghost V -> Prop) : forall m i G (Q : ghost V -> list nat -> Prop) l0, i + m = N ->
  (forall j, j < i -> G !! j = Some (bool_decide (j ∈ l0))) -> (forall j, j ∈ l0 -> j < i) ->
  (forall G' l, (forall j, j < N -> G' !! j = Some (bool_decide (j ∈ l0 ++ l))) -> StronglySorted lt l -> (forall j, j ∈ l -> i <= j < N) -> Q (with_do (DRem e G' ∅) g) l) ->
  proto n (with_do (DRem e G ∅) g) (p_find_in e i m) Q P.
Proof.
  induction m as [|m IH]; intros i G Q l0 Hi HG Hl HQ.
  { cbn [p_find_in proto]. apply HQ; [|constructor|by intros j ?%elem_of_nil]. intros j Hj. rewrite app_nil_r. apply HG. lia. }
  destruct (head_lt i) as (k & a & b & Eh & Ha & Hb); [lia|]. cbn [p_find_in].
  apply proto_bind. cbn [acq proto]. apply proto_bind. eapply proto_look; [intros w aw Hw; by eapply okw_head|].
  rewrite Eh. apply proto_bind. cbn [punwrap proto]. apply proto_bind, proto_storage; [done|]. apply proto_bind, proto_storage; [done|].
  apply proto_bind, proto_act. intros w aw Hw. destruct (okw_group _ _ _ _ i Hw) as (gr & ag & Hg & Hag & Hok); [lia|].
  rewrite (in_group_spec _ _ _ _ i e ag Hw Hag). cbn [fst]. set (need := bool_decide (e ∈ ag_mem ag)).
  destruct (rem_gwf _ _ _ _ _ _ _ Hw eq_refl) as (He & Hk & Hni & Kg & Kt).
  exists (with_do (DRem e (<[i := need]> G) ∅) g). split.
  { right. exists e, (<[i := need]> G), ∅. split; [right; by eexists _, _|]. split; [done|].
    apply (rem_known n (with_do (DRem e G ∅) g) w aw e G ∅); [done|by right|done|done|done| |done]. intros j b' Hj ag' Hag'. destruct (decide (i = j)) as [<-|Hne].
    - rewrite lookup_insert in Hj. injection Hj as <-. assert (ag' = ag) as -> by congruence. unfold need. by rewrite bool_decide_eq_true.
    - rewrite lookup_insert_ne in Hj by done. by eapply Kg. }
  cbn [rel pbind proto]. destruct need eqn:En.
  - cbn [acq pbind proto]. apply proto_bind. eapply (IH (S i) _ _ (l0 ++ [i])); [lia| | |].
    + intros j Hj. destruct (decide (i = j)) as [<-|Hne].
      * rewrite lookup_insert, bool_decide_true; [done|]. apply elem_of_app. right. left.
      * rewrite lookup_insert_ne, HG by (done || lia). f_equal. apply bool_decide_ext. rewrite elem_of_app, elem_of_list_singleton. intuition congruence.
    + intros j [Hj|Hj]%elem_of_app; [apply Hl in Hj; lia|]. apply elem_of_list_singleton in Hj. lia.
    + intros G' l HG' So Hl'. cbn [proto]. apply HQ.
      * intros j Hj. rewrite HG' by done. by rewrite <- app_assoc.
      * apply StronglySorted_cons_lt; [|done]. intros j Hj. apply Hl' in Hj. lia.
      * intros j [->|Hj]%elem_of_cons; [lia|]. apply Hl' in Hj. lia.
  - eapply (IH (S i) _ _ l0); [lia| | |].
    + intros j Hj. destruct (decide (i = j)) as [<-|Hne].
      * rewrite lookup_insert, bool_decide_false; [done|]. intros Hx. apply Hl in Hx. lia.
      * rewrite lookup_insert_ne, HG by (done || lia). done.
    + intros j Hj. apply Hl in Hj. lia.
    + intros G' l HG' So Hl'. apply HQ; [done|done|]. intros j Hj. apply Hl' in Hj. lia.
Qed.
Lemma proto_each_kill n e g (P : ghost V -> Prop) (Q : ghost V -> unit -> Prop) : forall l G, StronglySorted lt l -> (forall j, j ∈ l -> j < N) ->
  (forall j, j < N -> G !! j = Some (bool_decide (j ∈ l))) ->
  (forall G', (forall j, j < N -> G' !! j = Some false) -> Q (with_do (DRem e G' ∅) g) tt) ->
  proto n (with_do (DRem e G ∅) g) (p_each_group (V := V) l (fun i => BKill i e)
      (full_remove e >>! on_a (cs_remove e) >>! on_b (cs_remove e))
      (part_remove e >>! on_a (cs_remove e)) (non_remove e)) Q P.
Proof.
  unfold p_each_group. induction l as [|i l IH]; intros G So Hl HG HQ.
  { cbn. apply HQ. intros j Hj. rewrite HG by done. by rewrite bool_decide_false by apply not_elem_of_nil. }
  inversion So as [|? ? So' Hlt]; subst. rewrite Forall_forall in Hlt. cbn [pfor]. apply proto_bind, proto_bind.
  assert (i < N) as Hi by (apply Hl; left). apply proto_group_at; [done|]. intros w aw Hw.
  assert (G !! i = Some true) as Hgi. { rewrite HG by done. by rewrite bool_decide_true by left. }
  exists (with_do (DRem e (<[i := false]> G) ∅) g). split; [|split].
  - exists G. split; [done|]. split; [done|]. split; [done|]. split; [|done]. intros j Hj. rewrite HG by lia. rewrite bool_decide_false; [done|].
    intros [->|Hx]%elem_of_cons; [lia|]. apply Hlt in Hx. lia.
  - destruct (okw_group _ _ _ _ i Hw Hi) as (gr & ag & Hg & Hag & Hok). destruct (rem_gwf _ _ _ _ _ _ _ Hw eq_refl) as (He & Hk & Hni & Kg & Kt).
    assert (e ∈ ag_mem ag) as Hin by (by apply (Kg i true Hgi)).
    destruct (run_delete w _ _ i gr ag e (R_st _ _ (okw_R _ _ _ _ Hw)) Hg Hok Hin) as (cs' & g' & E & _). by rewrite E.
  - cbn [rel proto]. apply IH; [done| | |done].
    + intros j Hj. apply Hl. by right.
    + intros j Hj. destruct (decide (i = j)) as [<-|Hne].
      * rewrite lookup_insert, bool_decide_false; [done|]. intros Hx. apply Hlt in Hx. lia.
      * rewrite lookup_insert_ne, HG by done. f_equal. apply bool_decide_ext. rewrite elem_of_cons. intuition congruence.
Qed.
Lemma has_spec n g w aw t e : okw n g w aw -> hasc (a_comps aw) t e <-> storage_has w e t = true.
Proof.
  intros Hw. pose proof (R_st _ _ (okw_R _ _ _ _ Hw) t) as S. unfold storage_has, hasc. destruct (w_comps w !! t) as [st|] eqn:Hst.
  - destruct (a_comps aw !! t) as [m|] eqn:Hm; rewrite ?Hm; [|done]. destruct S as [_ S]. simpl. rewrite (rep_exist _ _ _ e S). by rewrite bool_decide_eq_true.
  - destruct (a_comps aw !! t) as [m|] eqn:Hm; rewrite ?Hm; [done|]. simpl. split; [by intros [? ?]|done].
Qed.
Lemma proto_find_storages n e g G (P : ghost V -> Prop) : forall ord T (Q : ghost V -> list nat -> Prop) done0 l0, NoDup ord ->
  (forall t, t ∈ ord -> t ∉ done0) -> (forall t, t ∈ l0 -> t ∈ done0) ->
  (forall t, t ∈ done0 -> T !! t = Some (bool_decide (t ∈ l0))) ->
  (forall T' l, (forall t, t ∈ done0 ++ ord -> T' !! t = Some (bool_decide (t ∈ l0 ++ l))) -> NoDup l -> (forall t, t ∈ l -> t ∈ ord) -> Q (with_do (DRem e G T') g) l) ->
  proto n (with_do (DRem e G T) g) (p_find_storages e ord) Q P.
Proof.
  induction ord as [|t ord IH]; intros T Q done0 l0 ND Hdis Hl HT HQ.
  { cbn [p_find_storages proto]. apply HQ; [|constructor|done]. intros t Ht. rewrite app_nil_r in *. by apply HT. }
  apply NoDup_cons in ND as [Hn ND]. cbn [p_find_storages]. apply proto_bind. cbn [acq proto]. apply proto_bind, proto_act. intros w aw Hw.
  cbn [fst]. pose proof (has_spec _ _ _ _ t e Hw) as Hhas. set (need := storage_has w e t) in *.
  destruct (rem_gwf _ _ _ _ _ _ _ Hw eq_refl) as (He & Hk & Hni & Kg & Kt).
  assert (t ∉ done0) as Htd by (apply Hdis; left).
  exists (with_do (DRem e G (<[t := need]> T)) g). split.
  { right. exists e, G, (<[t := need]> T). split; [right; by eexists _, _|]. split; [done|].
    apply (rem_known n (with_do (DRem e G T) g) w aw e G T); [done|by right|done|done|done|done|]. intros u b Hu. destruct (decide (t = u)) as [<-|Hne].
    - rewrite lookup_insert in Hu. by injection Hu as <-.
    - rewrite lookup_insert_ne in Hu by done. by eapply Kt. }
  cbn [rel pbind proto]. assert (forall u, u ∈ done0 -> u <> t) as Hne by (by intros u Hu ->). destruct need eqn:En.
  - cbn [acq pbind proto]. apply proto_bind. eapply (IH _ _ (done0 ++ [t]) (l0 ++ [t])); [done| | | |].
    + intros u Hu [Hx|Hx]%elem_of_app; [by eapply Hdis; [right|]|]. apply elem_of_list_singleton in Hx. congruence.
    + intros u [Hu|Hu]%elem_of_app; apply elem_of_app; [left; auto|by right].
    + intros u [Hu|Hu]%elem_of_app.
      * rewrite lookup_insert_ne, HT by (done || (by apply not_eq_sym, Hne)). f_equal. apply bool_decide_ext. rewrite elem_of_app, elem_of_list_singleton. apply Hne in Hu. tauto.
      * apply elem_of_list_singleton in Hu as ->. rewrite lookup_insert, bool_decide_true; [done|]. apply elem_of_app. right. left.
    + intros T' l HT' NDl Hl'. cbn [proto]. apply HQ.
      * intros u Hu. rewrite HT'; [by rewrite <- app_assoc|]. by rewrite <- app_assoc.
      * apply NoDup_cons. split; [|done]. intros Hx. by apply Hl' in Hx.
      * intros u [->|Hu]%elem_of_cons; [left|right; auto].
  - eapply (IH _ _ (done0 ++ [t]) l0); [done| | | |].
    + intros u Hu [Hx|Hx]%elem_of_app; [by eapply Hdis; [right|]|]. apply elem_of_list_singleton in Hx. congruence.
    + intros u Hu. apply elem_of_app. left. auto.
    + intros u [Hu|Hu]%elem_of_app.
      * rewrite lookup_insert_ne, HT by (done || (by apply not_eq_sym, Hne)). done.
      * apply elem_of_list_singleton in Hu as ->. rewrite lookup_insert, bool_decide_false; [done|]. intros Hx. by apply Hl in Hx.
    + intros T' l HT' NDl Hl'. apply HQ; [|done|].
      * intros u Hu. rewrite HT'; [done|]. by rewrite <- app_assoc.
      * intros u Hu. right. auto.
Qed.
Lemma proto_drop n e g G (P : ghost V -> Prop) (Q : ghost V -> unit -> Prop) : (forall i, i < N -> G !! i = Some false) ->
  forall l T, NoDup l -> (forall t, has_registered t w0 = true -> T !! t = Some (bool_decide (t ∈ l))) -> (forall t, t ∈ l -> has_registered t w0 = true) ->
  (forall T', (forall t, has_registered t w0 = true -> T' !! t = Some false) -> Q (with_do (DRem e G T') g) tt) ->
  proto n (with_do (DRem e G T) g) (pfor l (fun t => act (BDrop t e) (dyn_mut t (cs_remove e)) ;;; rel (LStore t) true)) Q P.
Proof.
  intros HG. induction l as [|t l IH]; intros T ND HT Hreg HQ.
  { cbn. apply HQ. intros t Ht. rewrite HT by done. by rewrite bool_decide_false by apply not_elem_of_nil. }
  apply NoDup_cons in ND as [Hn ND]. cbn [pfor]. apply proto_bind, proto_bind, proto_act. intros w aw Hw.
  assert (T !! t = Some true) as Ht. { rewrite HT by (apply Hreg; left). by rewrite bool_decide_true by left. }
  exists (with_do (DRem e G (<[t := false]> T)) g). split; [by exists G, T|].
  destruct (rem_gwf _ _ _ _ _ _ _ Hw eq_refl) as (He & Hk & Hni & Kg & Kt).
  assert (hasc (a_comps aw) t e) as Hh by (by apply (Kt t true Ht)). unfold hasc in Hh.
  destruct (a_comps aw !! t) as [m|] eqn:Hm; [|by destruct Hh]. destruct Hh as [v Hv]. simpl in Hv.
  destruct (srel_Some _ _ _ _ _ (R_st _ _ (okw_R _ _ _ _ Hw)) Hm) as (st & Hst & Ty & Rt).
  destruct (cs_remove_rep e _ _ _ v Rt Hv) as (s' & i & el & Es & _). unfold dyn_mut. rewrite Hst, Es. cbn [fst rel proto].
  apply IH; [done| | |done].
  - intros u Hu. destruct (decide (t = u)) as [<-|Hne].
    + by rewrite lookup_insert, bool_decide_false.
    + rewrite lookup_insert_ne, HT by done. f_equal. apply bool_decide_ext. rewrite elem_of_cons. intuition congruence.
  - intros u Hu. apply Hreg. by right.
Qed.
Lemma proto_remove n g e ord (P : ghost V -> Prop) (Q : ghost V -> unit -> Prop) : idle g -> e ∈ g_mine g -> kept e = false -> no_inversion w0 ->
  NoDup ord -> (forall t, t ∈ ord <-> has_registered t w0 = true) ->
  (forall g', idle g' -> g_mine g' = g_mine g ∖ {[e]} -> g_has g' = g_has g -> g_bare g' = g_bare g -> Q g' tt) -> proto n g (p_remove e ord) Q P.
Proof.
  intros Hg He Hk Hni ND Hord HQ. unfold p_remove. apply proto_bind, proto_exist; [by left|]. apply proto_bind. cbn [passert proto].
  apply proto_bind. intros w aw Hw. exists (with_do (DRem e ∅ ∅) g). split.
  { right. exists e, ∅, ∅. split; [by left|]. split; [done|].
    apply (rem_known n g w aw e ∅ ∅); [done|by left|done|done|done|..]; intros ? ?; by rewrite lookup_empty. }
  cbn [fst proto]. replace (n_groups w) with N by (by apply (shape_len _ _ (proj1 Hw))).
  apply proto_bind. eapply (proto_find_in n e g _ N 0 ∅ _ []); [done|lia|by intros j ?%elem_of_nil|].
  intros G l HG So Hl. apply proto_bind. apply proto_each_kill; [done|intros j Hj; apply Hl in Hj; lia|done|].
  intros G' HG'. apply proto_bind. eapply (proto_find_storages n e g G' _ ord ∅ _ [] []); [done| | | |].
  { intros t _. apply not_elem_of_nil. }
  { by intros t ?%elem_of_nil. }
  { by intros t ?%elem_of_nil. }
  intros T l' HT NDl Hl'. apply proto_bind. apply proto_drop; [done|done| | |].
  { intros t Ht. apply HT. by apply Hord. }
  { intros t Ht. by apply Hord, Hl'. }
  intros T' HT'. cbn [acq pbind proto]. apply proto_bind, proto_act. intros w' aw' Hw'. exists (Gh (g_mine g ∖ {[e]}) (g_known g) DNone (g_has g) (g_bare g)). split.
  { exists G', T'. done. }
  destruct (okw_live _ _ _ _ e Hw' (or_introl He)) as [H1 H2].
  destruct (em_remove_spec _ _ _ e (R_em _ _ (okw_R _ _ _ _ Hw')) H1 H2) as (e' & E & _). unfold on_em. rewrite E. cbn [fst rel proto]. apply HQ; [by left|done|done|done].
Qed.

(** ** Calls *)
(** after the call [o] has answered [r] *)
Definition post g (o : op V) (r : outcome (out V)) g' : Prop :=
  idle g' /\ fair w0 (g_mine g) o r /\ g_mine g' = own_next shared (g_mine g) o r /\ g_bare g' = bare_next (g_bare g) o r /\
  (clean -> as_alone w0 shared kept still (g_mine g) (g_has g) o r /\
    forall t e, e ∈ g_mine g' -> ~ common w0 shared kept t e -> alike still (g_has g' t e) (own_event t e (g_has g t e) (o, r))).
Lemma own_event_none t e cur (o : op V) r : handed_ev (o, r) = [] -> own_event t e cur (o, r) = comp_event t e cur (o, r).
Proof. intros H. unfold own_event. rewrite H, decide_False; [done|]. apply not_elem_of_nil. Qed.
(** calls that change nothing a thread knows *)
Definition idle_op (o : op V) : Prop :=
  match o with
  | CreateEntity | CreateEntities _ | RemoveEntity _ _ | Attach _ _ _ | Detach _ _ | WriteComp _ _ _ | StoreGetMut _ _ _ => False
  | BatchAttach _ _ _ _ => False
  | QueryMut _ _ => still = false
  | _ => True
  end.
Lemma post_same g o r : idle g -> idle_op o -> (clean -> as_alone w0 shared kept still (g_mine g) (g_has g) o r) -> post g o r g.
Proof.
  intros Hg Ho Ha. split; [done|]. split; [by destruct o|]. do 2 (split; [by destruct o|]). intros Hc. split; [auto|]. intros t e _ _.
  rewrite own_event_none by (by destruct o).
  destruct o; try done; try apply alike_refl. cbn [comp_event idle_op] in *. destruct r as [[]| | |]; try apply alike_refl. case_decide; [|apply alike_refl].
  split; [by rewrite fmap_is_Some|congruence].
Qed.
Lemma proto_via n g t x lab o (Q : ghost V -> out V -> Prop) (P : ghost V -> Prop) :
  (forall w aw, okw n g w aw -> has_registered t w0 = true -> exists g', trans aw lab g g' /\
    match (step o w).1 with Ret b => Q g' b | Panic => P g' | _ => True end) ->
  (forall w aw, okw n g w aw -> has_registered t w0 = false -> match (step o w).1 with Ret b => Q g b | Panic => P g | _ => True end) ->
  proto n g (via_guard (LStore t) x lab (has_registered t) o) Q P.
Proof.
  intros H1 H2. apply proto_bind. eapply proto_look; [intros w aw Hw; by eapply okw_has|]. destruct (has_registered t w0) eqn:Ht.
  - cbn [acq pbind proto]. apply proto_bind, proto_act. intros w aw Hw. destruct (H1 w aw Hw eq_refl) as (g' & A & B). exists g'. split; [done|].
    destruct ((step o w).1); done.
  - apply proto_act. intros w aw Hw. exists g. split; [by left|]. by apply (H2 w aw).
Qed.
Definition reads_one (o : op V) : option (nat * nat) :=
  match o with ReadComp t id | StoreGet t id | StoreExist t id | WriteComp t id _ | StoreGetMut t id _ => Some (t, id) | _ => None end.
Lemma reads_alone n g w aw o t id : okw n g w aw -> idle g -> reads_one o = Some (t, id) -> clean -> as_alone w0 shared kept still (g_mine g) (g_has g) o (step o w).1.
Proof.
  intros Hw Hg Ho Hc. pose proof (okw_R _ _ _ _ Hw) as HR.
  assert (id ∈ g_mine g -> aout aw o (step o w).1) as HA.
  { intros Hin. assert (1 <= id) as Hid by apply (okw_live _ _ _ _ id Hw (or_introl Hin)).
    apply step_ok; [done|]. destruct o; try done; by injection Ho as -> ->. }
  assert (id ∈ g_mine g -> ~ common w0 shared kept t id -> alike still (comp aw t id) (g_has g t id)) as HS.
  { intros H1 H2. eapply okw_sees; [done|done|by apply idle_not_rem]. }
  assert (forall x : bool -> outcome (out V), id ∈ g_mine g -> ~ common w0 shared kept t id -> x (bool_decide (is_Some (comp aw t id))) = x (bool_decide (is_Some (g_has g t id)))) as HB.
  { intros x H1 H2. f_equal. apply bool_decide_ext. apply (HS H1 H2). }
  assert (has_registered t w0 = true -> exists m, a_comps aw !! t = Some m) as Hreg.
  { intros Hr. rewrite <- (okw_has _ _ _ _ t Hw) in Hr. apply bool_decide_eq_true in Hr as [st Hst]. destruct (srel_Some_r _ _ _ _ _ (R_st _ _ HR) Hst) as (m & Hm & _). eauto. }
  destruct o; try done; injection Ho as -> ->; cbn [as_alone aout] in *; intros Hin Hn.
  - specialize (HA Hin). rewrite HA. exists (comp aw t id). split; [done|]. auto.
  - rewrite (HA Hin). exact (HB (fun b => Ret (OBool b)) Hin Hn).
  - intros Hr. destruct (Hreg Hr) as [m Hm]. rewrite (HA Hin). unfold comp in HS. rewrite Hm in *. simpl in *. do 3 f_equal. apply bool_decide_ext. apply (HS Hin Hn).
  - intros Hr. destruct (Hreg Hr) as [m Hm]. rewrite (HA Hin). unfold comp in HS. rewrite Hm in *. simpl in *. eexists. split; [done|]. auto.
  - rewrite (HA Hin). exact (HB (fun b => Ret (OBool b)) Hin Hn).
Qed.
Lemma quiet_idle n g o (Q : ghost V -> out V -> Prop) (P : ghost V -> Prop) : idle g -> idle_op o -> (forall r, as_alone w0 shared kept still (g_mine g) (g_has g) o r) ->
  quiet (p_call o) -> (forall g' a, post g o (Ret a) g' -> Q g' a) -> (forall g', post g o Panic g' -> P g') -> proto n g (p_call o) Q P.
Proof. intros Hg Ho Ha Hq HQ HP. apply proto_quiet'; [done|apply HP; by apply post_same|]. intros a. apply HQ. by apply post_same. Qed.
Lemma proto_read n g o t id (Q : ghost V -> out V -> Prop) (P : ghost V -> Prop) : idle g -> reads_one o = Some (t, id) -> idle_op o ->
  (forall g' a, post g o (Ret a) g' -> Q g' a) -> (forall g', post g o Panic g' -> P g') ->
  proto n g (via_guard (LStore t) false BRead (has_registered t) o) Q P.
Proof.
  intros Hg Ho Hi HQ HP.
  assert (forall w aw, okw n g w aw -> match (step o w).1 with Ret b => Q g b | Panic => P g | _ => True end) as HX.
  { intros w aw Hw. pose proof (reads_alone n g w aw o t id Hw Hg Ho) as Ha. destruct ((step o w).1); try done; [apply HQ|apply HP]; by apply post_same. }
  apply proto_via; intros w aw Hw _; [exists g; split; [by left|]|]; by eapply HX.
Qed.
Definition writes_one (o : op V) : option (nat * nat * V) :=
  match o with WriteComp t id v | StoreGetMut t id v => Some (t, id, v) | _ => None end.
Lemma proto_write n g o t id v (Q : ghost V -> out V -> Prop) (P : ghost V -> Prop) : idle g -> writes_one o = Some (t, id, v) ->
  (still = true -> may_attach w0 shared kept (g_mine g) t id) ->
  (forall g' a, post g o (Ret a) g' -> Q g' a) -> (forall g', post g o Panic g' -> P g') ->
  proto n g (via_guard (LStore t) true (BSet o) (has_registered t) o) Q P.
Proof.
  intros Hg Ho Hm HQ HP. assert (reads_one o = Some (t, id)) as Hr by (destruct o; try done; by injection Ho as -> -> ->).
  assert (forall w aw g', okw n g w aw -> g' = with_has (over t id v (g_has g)) g \/ (g' = g /\ forall e, comp aw t e = None) -> match (step o w).1 with Ret b => Q g' b | Panic => P g' | _ => True end) as HX.
  { intros w aw g' Hw Hg'. pose proof (reads_alone n g w aw o t id Hw Hg Hr) as Ha. destruct ((step o w).1) as [a| | |] eqn:E; try done; [apply HQ|apply HP].
    all: split; [by destruct Hg' as [->|[-> _]]|]; split; [by destruct o|]; do 2 (split; [destruct Hg' as [->|[-> _]]; by destruct o|]).
    all: intros Hc; specialize (Ha Hc); split; [done|]; intros u e He Hn.
    all: assert (e ∈ g_mine g) as Hin by (destruct Hg' as [->|[-> _]]; done).
    all: pose proof (okw_sees _ _ _ _ u e Hw (conj Hc (conj Hin Hn)) (idle_not_rem _ _ Hg)) as Hs.
    all: rewrite own_event_none by (by destruct o).
    all: assert (alike still (g_has g' u e) (over t id v (g_has g) u e)) as Hov by
      (destruct Hg' as [->|[-> Hx]]; [apply alike_refl|]; unfold over; case_decide as Hd; [|apply alike_refl]; destruct Hd as [-> ->]; rewrite Hx in Hs; apply alike_None in Hs; rewrite Hs; apply alike_refl).
    all: eapply alike_trans; [exact Hov|]; unfold over; case_decide as Hd; [destruct Hd as [-> ->]|].
    - destruct o; try done; injection Ho as -> -> ->; cbn [as_alone] in Ha; specialize (Ha Hin Hn); injection Ha as ->; cbn [comp_event]; destruct (g_has g t id); simpl;
        rewrite ?decide_True by done; apply alike_refl.
    - destruct o; try done; injection Ho as -> -> ->; cbn [comp_event]; destruct a as [|[]| | | | | | | | |]; rewrite ?(decide_False (P := t = u /\ id = e)) by naive_solver; apply alike_refl.
    - destruct o; try done; injection Ho as -> -> ->; cbn [as_alone] in Ha; specialize (Ha Hin Hn); done.
    - destruct o; try done; apply alike_refl. }
  apply proto_via; intros w aw Hw Hreg.
  - exists (with_has (over t id v (g_has g)) g). split; [destruct o; try done; by injection Ho as -> -> ->|]. apply (HX w aw); [done|by left].
  - apply (HX w aw); [done|]. right. split; [done|]. intros e. by eapply unreg_comp.
Qed.
Lemma post_made g g' o r ids : handed_ev (o, r) = ids -> (o = CreateEntity \/ exists m, o = CreateEntities m) -> idle g' -> fair w0 (g_mine g) o r ->
  g_mine g' = own_next shared (g_mine g) o r -> g_has g' = wipe ids (g_has g) -> g_bare g' = bare_next (g_bare g) o r -> post g o r g'.
Proof.
  intros Hh Ho Hi Hf Hm Hb Hba. do 4 (split; [done|]). intros Hc. split; [by destruct Ho as [->|[m ->]]|]. intros t e _ _.
  rewrite Hb. unfold own_event, wipe. rewrite Hh. case_decide; [apply alike_refl|]. destruct Ho as [->|[m ->]]; apply alike_refl.
Qed.
Lemma proto_call n g o (Q : ghost V -> out V -> Prop) (P : ghost V -> Prop) : idle g -> op_apart w0 shared kept still (g_mine g) o ->
  (forall g' a, post g o (Ret a) g' -> Q g' a) -> (forall g', post g o Panic g' -> P g') -> proto n g (p_call o) Q P.
Proof.
  intros Hg Ho HQ HP.
  destruct o as [t|t| |m|id ord|id|t id v|t id|lo hi t vs|t id|t id v|t|t|t id|t id|t|t id v|t i v|k a b|q|q f|r v|r|r v];
    cbn [op_apart may_write] in Ho; try (apply quiet_idle; done); try (apply quiet_idle; try done; by apply quiet_via).
  - cbn [p_call]. apply proto_bind, proto_new_entity; [done|]. intros g' id Hi Hid Hn Hm Hb Hba. cbn [rel pbind proto]. apply HQ.
    eapply post_made; [done|by left|done|by exists id|done|done|done].
  - cbn [p_call]. apply proto_bind, proto_new_entities; [done|]. intros g' lo Hi Hlo Hn Hm Hb Hba. cbn [rel pbind proto fst snd]. apply HQ.
    eapply post_made; [done|right; by eexists|done|by exists lo|cbn [own_next]; by replace (lo + m - lo) with m by lia|cbn [handed_ev]; by replace (lo + m - lo) with m by lia|done].
  - destruct Ho as (H1 & H2 & H3 & H4 & H5). cbn [p_call]. apply proto_bind, proto_remove; try done. intros g' Hi Hm Hh Hba. cbn [proto]. apply HQ.
    do 4 (split; [done|]). intros Hc. split; [done|]. intros t e He _. rewrite own_event_none by done. rewrite Hh. cbn [comp_event]. rewrite decide_False; [apply alike_refl|].
    intros <-. rewrite Hm in He. apply elem_of_difference in He as [_ He]. apply He. by apply elem_of_singleton.
  - cbn [p_call]. unfold p_exist. cbn [acq pbind proto]. apply proto_bind, proto_bind, proto_act. intros w aw Hw. exists g. split; [by left|].
    assert (id ∈ g_mine g -> exist id w = Ret true) as Hx. { intros Hin. eapply live_exist; [by eapply okw_R|]. eapply okw_live; [done|by left]. }
    destruct (exist id w) as [b| | |] eqn:E; cbn [fst rel pbind proto]; try done; [apply HQ|apply HP]; (apply post_same; [done|done|]); intros _ Hin; specialize (Hx Hin); [by injection Hx as ->|done].
  - (* Attach *)
    assert (has_registered t w0 = false -> post g (Attach t id v) Panic g) as HPp.
    { intros Hreg. split; [done|]. split; [intros _ Hx; congruence|]. do 2 (split; [done|]). intros _. split; [done|]. intros u e _ _. rewrite own_event_none by done. apply alike_refl. }
    assert (forall g', mid t id (filled t id (S id) (g_bare g)) g g' -> g_has g' t id = Some v -> post g (Attach t id v) (Ret OUnit) g') as HQp.
    { intros g' (Hi & Hm & Hba & Hh) Hv. do 4 (split; [done|]). intros _. split; [done|]. intros u e _ _. rewrite own_event_none by done. cbn [comp_event].
      destruct (decide (t = u /\ id = e)) as [[<- <-]|Hne]; [rewrite Hv; apply alike_refl|]. rewrite Hh by naive_solver. apply alike_refl. }
    cbn [p_call]. apply proto_bind. destruct (decide (id ∈ g_mine g)) as [Hin|Hin].
    + apply proto_entity; [by left|]. cbn [passert pbind]. apply proto_bind, proto_handle_attach; [done|done|by intros Hreg; apply HP, HPp|].
      intros g' Hmid Hv. cbn [rel pbind proto]. apply HQ. by apply HQp.
    + assert (post g (Attach t id v) Panic g) as HPn.
      { split; [done|]. split; [by intros ? ?|]. do 2 (split; [done|]). intros _. split; [done|]. intros u e _ _. rewrite own_event_none by done. apply alike_refl. }
      apply proto_quiet'; [apply quiet_entity|by apply HP|]. intros b. apply proto_bind. apply proto_quiet'; [apply quiet_passert|by apply HP|].
      intros _. apply proto_bind, proto_handle_attach; [done|done|intros _; by apply HP|]. intros g' Hmid Hv. cbn [rel pbind proto]. apply HQ. by apply HQp.
  - (* Detach *)
    assert (forall g', mid t id (g_bare g) g g' -> (private t id g -> g_has g t id = None /\ g_has g' t id = None) -> post g (Detach t id) Panic g') as HPp.
    { intros g' (Hi & Hm & Hba & Hh) Hn. do 4 (split; [done|]). intros Hc. split.
      - intros Hin Hco. destruct Hn as [-> _]; [done|]. by right.
      - intros u e He Hco. rewrite own_event_none by done. cbn [comp_event]. destruct (decide (u = t /\ e = id)) as [[-> ->]|Hne].
        + rewrite Hm in He. destruct Hn as [-> ->]; [done|]. apply alike_refl.
        + rewrite Hh by done. apply alike_refl. }
    assert (forall g' r, mid t id (g_bare g) g g' -> g_has g' t id = None -> (private t id g -> alike still r (g_has g t id)) -> post g (Detach t id) (Ret (OVal r)) g') as HQp.
    { intros g' r (Hi & Hm & Hba & Hh) Hv Ha. do 4 (split; [done|]). intros Hc. split.
      - intros Hin Hco. specialize (Ha (conj Hc (conj Hin Hco))). case_bool_decide as Hb.
        + destruct r as [x|]; [by exists x|]. apply Ha in Hb. by destruct Hb.
        + left. destruct r; [|done]. destruct Hb. apply Ha. by eexists.
      - intros u e He Hco. rewrite own_event_none by done. cbn [comp_event]. destruct (decide (t = u /\ id = e)) as [[<- <-]|Hne].
        + rewrite Hv. apply alike_refl.
        + rewrite Hh by naive_solver. apply alike_refl. }
    cbn [p_call]. apply proto_bind. destruct (decide (id ∈ g_mine g)) as [Hin|Hin].
    + apply proto_entity; [by left|]. cbn [passert pbind]. apply proto_bind, proto_handle_detach; [done|done|by intros g' H1 H2; apply HP, HPp|].
      intros g' r H1 H2 H3. cbn [rel pbind proto]. apply HQ. by apply HQp.
    + assert (post g (Detach t id) Panic g) as HPn. { apply HPp; [by apply mid_refl|]. by intros (_ & ? & _). }
      apply proto_quiet'; [apply quiet_entity|by apply HP|]. intros b. apply proto_bind. apply proto_quiet'; [apply quiet_passert|by apply HP|].
      intros _. apply proto_bind, proto_handle_detach; [done|done|by intros g' H1 H2; apply HP, HPp|]. intros g' r H1 H2 H3. cbn [rel pbind proto]. apply HQ. by apply HQp.
  - cbn [p_call proto]. apply HP. do 4 (split; [done|]). intros _. split; [done|]. intros u e _ _. rewrite own_event_none by done. apply alike_refl.
  - by eapply proto_read.
  - by eapply proto_write.
  - by eapply proto_read.
  - by eapply proto_read.
  - by eapply proto_write.
  - apply quiet_idle; try done. cbn [p_call]. apply quiet_bind; [apply quiet_open|]. intros x. apply quiet_bind; [done|]. intros l. by apply quiet_rels.
  - apply quiet_idle; try done. cbn [p_call]. apply quiet_bind; [apply quiet_open|]. intros x. apply quiet_bind; [done|]. intros l. by apply quiet_rels.
Qed.

(** ** Clients *)
Definition obj_id (ob : obj V) : handle := match ob with JEntity id => HOne id | JEntities lo hi => HMany lo hi | _ => HOther end.
Notation PI n g p := (proto n g p (fun g' _ => idle g') (fun _ => False)).
Lemma proto_stop n g hs P : idle g -> proto n g (rels hs (PRet (V := V) tt)) (fun g' _ => idle g') P.
Proof. intros H. by apply proto_rels. Qed.
Lemma ids_delete (e : list (obj V)) j : obj_id <$> delete j e = delete j (obj_id <$> e).
Proof. revert j. induction e as [|x e IH]; intros [|j]; simpl; try done. unfold delete in *. simpl. by rewrite <- IH. Qed.
Lemma proto_use n g ob (o : op V) (Q : ghost V -> out V -> Prop) (P : ghost V -> Prop) : idle g -> through ob o = true -> may_write w0 shared kept still (g_mine g) o ->
  (forall g' a, idle g' -> g_mine g' = g_mine g -> g_bare g' = g_bare g -> Q g' a) -> (forall g', idle g' -> g_mine g' = g_mine g -> g_bare g' = g_bare g -> P g') -> proto n g (act (use_label o) (step o)) Q P.
Proof.
  intros Hg Ht Hm HQ HP. apply proto_act. intros w aw Hw.
  assert (exists g', trans aw (use_label o) g g' /\ idle g' /\ g_mine g' = g_mine g /\ g_bare g' = g_bare g) as (g' & H1 & H2 & H3 & H4).
  { destruct o; cbn [use_label may_write] in *; try (exists g; split; [by left|done]); try by exists g.
    - by exists (with_has (over t id v (g_has g)) g).
    - by exists (with_has (over t id v (g_has g)) g). }
  exists g'. split; [done|]. destruct ((step o w).1); auto.
Qed.
Lemma proto_compile n cl : forall e g, idle g -> minds w0 shared kept still (g_mine g) (g_bare g) (obj_id <$> e) cl -> PI n g (compile e cl).
Proof.
  induction cl as [|o k IH|id k IH|k IH|m k IH|j t v k IH|j t k IH|j t vs k IH|t x k IH|t id x k IH|r x k IH|j o k IH|q k IH|j c k IH|j k IH];
    intros e g Hg Hm; cbn [minds compile] in *.
  - by apply proto_stop.
  - destruct Hm as [Ho Hm]. eapply proto_catch.
    + apply proto_call; [done|done| |].
      * intros g' a (Hg' & Hf & Hn & Hba & _) m. apply IH; [done|]. rewrite Hn, Hba. by apply Hm.
      * intros g' H. exact H.
    + intros g' (Hi & Hf & Hn & Hba & _). apply IH; [done|]. rewrite Hn, Hba. by apply Hm.
  - eapply proto_catch with (P := fun g' => g' = g).
    + apply proto_quiet'; [apply quiet_entity|done|]. intros a m. apply IH; [done|]. specialize (Hm (Ret a)). by destruct a.
    + intros g' ->. apply IH; [done|]. apply (Hm Panic).
  - eapply proto_catch with (P := fun g' => False); [|done].
    apply proto_new_entity; [done|]. intros g' id Hi H0 Hn Hgm _ Hba m. apply IH; [done|]. rewrite Hgm, Hba. by apply Hm.
  - eapply proto_catch with (P := fun g' => False); [|done].
    apply proto_new_entities; [done|]. intros g' lo Hi H0 Hn Hgm _ Hba m'. apply IH; [done|]. rewrite Hgm, Hba. by apply Hm.
  - rewrite list_lookup_fmap in Hm. destruct (e !! j) as [ob|] eqn:Ej; [|by apply proto_stop]. destruct ob as [id| | | |]; try by apply proto_stop.
    cbn in Hm. destruct Hm as [Ha Hm]. eapply proto_catch with (P := fun g' => g' = g).
    + apply proto_handle_attach; [done|done|done|]. intros g' (Hi & Hn & Hba & _) _ m. apply IH; [done|]. rewrite Hn, Hba. apply (Hm (Ret tt)).
    + intros g' ->. cbn [proto]. apply IH; [done|]. rewrite ids_delete. apply (Hm Panic).
  - rewrite list_lookup_fmap in Hm. destruct (e !! j) as [ob|] eqn:Ej; [|by apply proto_stop]. destruct ob as [id| | | |]; try by apply proto_stop.
    cbn in Hm. destruct Hm as [Ha Hm]. eapply proto_catch with (P := mid t id (g_bare g) g).
    + apply proto_handle_detach; [done|done|done|]. intros g' r (Hi & Hn & Hba & _) _ _ m. apply IH; [done|]. rewrite Hn, Hba. apply Hm.
    + intros g' (Hi & Hn & Hba & _). apply IH; [done|]. rewrite Hn, Hba. apply Hm.
  - rewrite list_lookup_fmap in Hm. destruct (e !! j) as [ob|] eqn:Ej; [|by apply proto_stop]. destruct ob as [|lo hi| | |]; try by apply proto_stop.
    cbn in Hm. destruct Hm as [Ha Hm]. eapply proto_catch with (P := fun g' => g' = g).
    + apply proto_batch; [done|done|done|]. intros g' Hi Hn Hba m. apply IH; [done|]. rewrite Hn, Hba. apply (Hm (Ret tt)).
    + intros g' ->. cbn [proto]. apply IH; [done|]. rewrite ids_delete. apply (Hm Panic).
  - intros w aw _. exists g. split; [by left|]. cbn [fst]. destruct (has_registered t w).
    + cbn [proto]. apply IH; [done|]. apply (Hm true).
    + apply IH; [done|]. apply (Hm false).
  - intros w aw _. exists g. split; [by left|]. cbn [fst]. destruct (has_registered t w).
    + cbn [proto]. intros w' aw' _. exists g. split; [by left|]. cbn [fst]. destruct (storage_has w' id t).
      * apply IH; [done|]. apply (Hm true).
      * cbn [proto]. apply IH; [done|]. apply (Hm false).
    + apply IH; [done|]. apply (Hm false).
  - intros w aw _. exists g. split; [by left|]. cbn [fst]. destruct (has_res r w).
    + cbn [proto]. apply IH; [done|]. apply (Hm true).
    + apply IH; [done|]. apply (Hm false).
  - destruct (e !! j) as [ob|] eqn:Ej; [|by apply proto_stop]. destruct (through ob o) eqn:Et; [|by apply proto_stop]. destruct Hm as [Ho Hm].
    eapply proto_catch with (P := fun g' => idle g' /\ g_mine g' = g_mine g /\ g_bare g' = g_bare g).
    + eapply proto_use; [done|done|done| |done]. intros g' a Hi Hn Hba m. apply IH; [done|]. rewrite Hn, Hba. apply Hm.
    + intros g' (Hi & Hn & Hba). apply IH; [done|]. rewrite Hn, Hba. apply Hm.
  - eapply proto_catch with (P := fun g' => g' = g).
    + apply proto_quiet'; [apply quiet_open|done|]. intros a m. apply IH; [done|]. apply (Hm (Ret tt)).
    + intros g' ->. apply IH; [done|]. apply (Hm Panic).
  - destruct (e !! j) as [ob|] eqn:Ej; [|by apply proto_stop]. destruct ob as [| | | |J st hs]; try by apply proto_stop. destruct Hm as [Hcw Hm].
    intros w aw _. exists g. split; [destruct c; first [done|by left]|]. destruct (run_call J (own_writes hs c) (w, st)) as [o [w' st']]. cbn [fst snd].
    assert (forall o, PI n g (compile (<[j := JIter J st' hs]> e) (k o))) as Hgo.
    { intros o'. apply IH; [done|]. replace (obj_id <$> <[j := JIter J st' hs]> e) with (obj_id <$> e); [apply Hm|].
      rewrite list_fmap_insert. symmetry. apply list_insert_id. by rewrite list_lookup_fmap, Ej. }
    destruct o as [a| | |]; [apply Hgo|apply Hgo|done..].
  - destruct (e !! j) as [ob|] eqn:Ej; [|by apply proto_stop]. apply proto_rels. apply IH; [done|]. by rewrite ids_delete.
Qed.
End apart.

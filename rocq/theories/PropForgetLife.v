(** C57: forgotten guards in the whole life of a world, exclusive use included. *)
From stdpp Require Import prelude list gmap.
From Verif Require Import Base Api ModelSparse ModelEntity ModelGroup ModelWorld ModelQuery ModelStep ModelConc
  ProofLoose2 PropWorld ProofSeq ProofSeq2 PropSeq ProofConc ProofConc4 ProofConc6 ProofConc7 ProofConc8 ProofConc10 ProofConc11 PropConc ModelLife ModelForget Spec History SpecConc SpecLife PropLife PropForget.

Section forget.
Context {V : Type}.
Notation world := (world V).
Implicit Types (w : world) (s : life V) (f : flife V) (bs : list (faction V)) (lost : list (lock * bool)).

(** ** Vocabulary *)

(** the action as it is in a life where nothing is forgotten *)
Definition plain (b : faction V) : action V := match b with FAct a => a | Forget i => Move i end.
(** [remove_entity] goes through a map: no type twice *)
Definition no_twice (b : faction V) : Prop := match b with FAct (Do (RemoveEntity _ ord)) => NoDup ord | _ => True end.
Definition nothing_forgotten (b : faction V) : Prop := match b with FAct _ => True | Forget _ => False end.
(** among the guards [lost] there is one that excludes [l] in mode [x] *)
Definition shut lost (l : lock) (x : bool) : Prop := exists y, (l, y) ∈ lost /\ y || x = true.
(** The locks an exclusive call may ask for on [w] ([x]: exclusively). *)
Definition own_store (t : tid) (x : bool) (l : lock) (y : bool) : Prop := l = LStore t /\ y = x.
Fixpoint query_needs (q : query) (l : lock) (x : bool) : Prop :=
  match q with
  | QRef m t => own_store t m l x
  | Q2 a b | QWithoutL a b | QWithoutR a b => query_needs a l x \/ query_needs b l x
  | Q3 a b c => query_needs a l x \/ query_needs b l x \/ query_needs c l x
  | Q4 a b c d => query_needs a l x \/ query_needs b l x \/ query_needs c l x \/ query_needs d l x
  | Q5 a b c d e => query_needs a l x \/ query_needs b l x \/ query_needs c l x \/ query_needs d l x \/ query_needs e l x
  | QGroup k ma mb a b => own_store a ma l x \/ own_store b mb l x \/ (exists i, l = LGroup i) /\ x = false
  end.
(** the storages a group works on: those it owns exclusively *)
Definition group_stores (k : gkind) (a b : tid) (l : lock) (x : bool) : Prop :=
  match k with
  | KFull => own_store a true l x \/ own_store b true l x
  | KPart => own_store a true l x \/ own_store b false l x
  | KNon => own_store a false l x \/ own_store b false l x
  end.
(** a shared guard of any group *)
Definition any_group w (l : lock) (x : bool) : Prop := exists i, i < n_groups w /\ l = LGroup i /\ x = false.
(** each group in which [t] occurs, with its storages *)
Definition groups_of w (t : tid) (l : lock) (x : bool) : Prop :=
  exists i k a b, group_head i w = Some (k, a, b) /\ (a = t \/ b = t) /\ ((l = LGroup i /\ x = true) \/ group_stores k a b l x).
(** what remove_entity asks for: any group; the storages of all types *)
Definition removal w (ord : list tid) (l : lock) (x : bool) : Prop :=
  match l with
  | LMan => True
  | LRes _ => False
  | LGroup i => i < n_groups w
  | LStore t => t ∈ ord \/ exists i k a b, group_head i w = Some (k, a, b) /\ (a = t \/ b = t)
  end.
Definition needs w (o : op V) (l : lock) (x : bool) : Prop :=
  match o with
  | Register _ | RegisterRes _ _ | HasRegistered _ => False
  | CreateEntity | CreateEntities _ => l = LMan
  | Exist _ => l = LMan /\ x = false
  | Attach t _ _ | Detach t _ => (l = LMan /\ x = false) \/ own_store t true l x \/ any_group w l x \/ groups_of w t l x
  | RemoveEntity _ ord => removal w ord l x
  | MakeGroup k a b => any_group w l x \/ (l = LGroup (n_groups w) /\ x = true) \/ group_stores k a b l x
  | BatchAttach _ _ t _ => (l = LMan /\ x = false) \/ own_store t true l x
  | ReadComp t _ | StoreCount t | StoreIsEmpty t | StoreExist t _ | StoreGet t _ | StoreData t => own_store t false l x
  | WriteComp t _ _ | StoreGetMut t _ _ | StoreDataSet t _ _ => own_store t true l x
  | Query q | QueryMut q _ => query_needs q l x
  | ReadRes r => l = LRes r /\ x = false
  | WriteRes r _ => l = LRes r /\ x = true
  end.

(** ** Programs among forgotten guards *)
Lemma shut_iff lost l x : conflict lost l x = true <-> shut lost l x.
Proof. apply conflict_iff. Qed.
(** every lock the program can ask for *)
Fixpoint asks {A} (P : lock -> bool -> Prop) (p : prog V A) : Prop :=
  match p with
  | PAcq l x k => P l x /\ asks P k
  | PRel _ _ k => asks P k
  | PAct _ _ k => forall b, asks P (k b)
  | _ => True
  end.
Lemma asks_weak {A} (P Q : lock -> bool -> Prop) (p : prog V A) : (forall l x, P l x -> Q l x) -> asks P p -> asks Q p.
Proof.
  intros H. induction p as [a| | | |l x p IH|l x p IH|C lab g kk IH]; cbn [asks]; auto. intros [H1 H2]. split; auto.
Qed.
Lemma asks_bind {A B} P (p : prog V A) (k : A -> prog V B) : asks P p -> (forall a, asks P (k a)) -> asks P (pbind p k).
Proof.
  intros Hp Hk. induction p as [a| | | |l x p IH|l x p IH|C lab g kk IH]; cbn [asks pbind] in *; auto.
  destruct Hp as [H1 H2]. split; auto.
Qed.
Lemma asks_rels {A} P h (k : prog V A) : asks P k -> asks P (rels h k).
Proof. intros H. induction h as [|[l x] h IH]; cbn [rels asks]; done. Qed.

(** with nothing forgotten a program does what it does *)
Lemma among_nil {A} (p : prog V A) h w : alone_among [] p h w = alone p h w.
Proof.
  revert h w. induction p as [a| | | |l x p IH|l x p IH|C lab g kk IH]; intros h w; cbn [alone_among alone]; try done.
  - rewrite app_nil_r. destruct (conflict h l x); [done|]. apply IH.
  - destruct (g w) as [[b| | |] w']; done || apply IH.
Qed.
(** the locks it asks for when it runs alone on [w] *)
Fixpoint askw {A} (P : lock -> bool -> Prop) (p : prog V A) w (Q : A -> world -> Prop) : Prop :=
  match p with
  | PRet a => Q a w
  | PAcq l x k => P l x /\ askw P k w Q
  | PRel _ _ k => askw P k w Q
  | PAct _ g k => match g w with (Ret b, w') => askw P (k b) w' Q | _ => True end
  | _ => True
  end.
Lemma among_cases {A} P lost (p : prog V A) h w Q : askw P p w Q -> alone_among lost p h w = alone p h w \/
  ((alone_among lost p h w).1.1 = Block /\ exists l x, P l x /\ shut lost l x).
Proof.
  revert h w. induction p as [a| | | |l x p IH|l x p IH|C lab g kk IH]; intros h w; cbn [alone_among alone askw] in *; try by left.
  - intros [H1 H2]. rewrite conflict_app. destruct (conflict h l x); [by left|]. cbn [orb].
    destruct (conflict lost l x) eqn:E; [|by apply IH]. right. split; [done|]. exists l, x. split; [done|]. by apply shut_iff.
  - intros H. by apply IH.
  - destruct (g w) as [[b| | |] w']; try by left. apply IH.
Qed.
Lemma askw_bind {A B} P (p : prog V A) (k : A -> prog V B) w Q : askw P p w (fun a w' => askw P (k a) w' Q) -> askw P (pbind p k) w Q.
Proof.
  revert w. induction p as [a| | | |l x p IH|l x p IH|C lab g kk IH]; intros w; cbn [askw pbind]; auto.
  - intros [H1 H2]. auto.
  - destruct (g w) as [[b| | |] w']; auto.
Qed.
Lemma askw_mono {A} P (p : prog V A) w (Q Q' : A -> world -> Prop) : (forall a w', Q a w' -> Q' a w') -> askw P p w Q -> askw P p w Q'.
Proof.
  intros HQ. revert w. induction p as [a| | | |l x p IH|l x p IH|C lab g kk IH]; intros w; cbn [askw]; auto.
  - intros [H1 H2]. auto.
  - destruct (g w) as [[b| | |] w']; auto.
Qed.
Lemma asks_w {A} P (p : prog V A) w : asks P p -> askw P p w (fun _ _ => True).
Proof.
  revert w. induction p as [a| | | |l x p IH|l x p IH|C lab g kk IH]; intros w; cbn [asks askw]; auto.
  - intros [H1 H2]. auto.
  - intros H. destruct (g w) as [[b| | |] w']; auto.
Qed.
(** the locks it asks for while the types and the groups of the world are as
    in [w0] *)
Fixpoint ask0 {A} w0 (P : lock -> bool -> Prop) (p : prog V A) (Q : A -> Prop) : Prop :=
  match p with
  | PRet a => Q a
  | PAcq l x k => P l x /\ ask0 w0 P k Q
  | PRel _ _ k => ask0 w0 P k Q
  | PAct _ g k => forall w, same_shape w0 w -> match (g w).1 with Ret b => ask0 w0 P (k b) Q | _ => True end
  | _ => True
  end.
Lemma ask0_bind {A B} w0 P (p : prog V A) (k : A -> prog V B) Q : ask0 w0 P p (fun a => ask0 w0 P (k a) Q) -> ask0 w0 P (pbind p k) Q.
Proof.
  induction p as [a| | | |l x p IH|l x p IH|C lab g kk IH]; cbn [ask0 pbind]; auto.
  - intros [H1 H2]. auto.
  - intros H w Hw. specialize (H w Hw). destruct (g w).1; auto.
Qed.
Lemma ask0_mono {A} w0 (P P' : lock -> bool -> Prop) (p : prog V A) (Q Q' : A -> Prop) : (forall l x, P l x -> P' l x) -> (forall a, Q a -> Q' a) -> ask0 w0 P p Q -> ask0 w0 P' p Q'.
Proof.
  intros HP HQ. induction p as [a| | | |l x p IH|l x p IH|C lab g kk IH]; cbn [ask0]; auto.
  - intros [H1 H2]. auto.
  - intros H w Hw. specialize (H w Hw). destruct (g w).1; auto.
Qed.
Lemma asks_0 {A} w0 P (p : prog V A) : asks P p -> ask0 w0 P p (fun _ => True).
Proof.
  induction p as [a| | | |l x p IH|l x p IH|C lab g kk IH]; cbn [asks ask0]; auto.
  - intros [H1 H2]. auto.
  - intros H w _. destruct (g w).1; auto.
Qed.
Lemma ask0_w {A} w0 lt pn m P (p : prog V A) Q0 Q w : same_shape w0 w -> wp w0 lt False pn [] m p Q0 -> ask0 w0 P p Q -> askw P p w (fun a _ => Q a).
Proof.
  revert m w. induction p as [a| | | |l x p IH|l x p IH|C lab g kk IH]; intros m w Hs; cbn [wp ask0 askw]; try done.
  - intros [_ H] [H1 H2]. split; [done|]. by eapply IH.
  - intros [_ H]. by eapply IH.
  - intros [[Hc _] H] H2. rewrite app_nil_r in Hc. destruct (Hc w Hs) as (K1 & _).
    assert (inv w0 False w) as Hi by (split; [done|intros []]). specialize (H w Hi). specialize (H2 w Hs).
    destruct (g w) as [[b| | |] w']; cbn [fst snd] in *; try done. eapply IH; [by eapply shape_trans|done|done].
Qed.

Ltac asks1 := match goal with
  | |- asks _ (pbind _ _) => apply asks_bind; [|intros ?]
  | |- asks _ (if ?b then _ else _) => destruct b
  | |- asks _ (passert ?b) => destruct b; exact I
  | |- asks _ (punwrap ?b) => destruct b; exact I
  | |- asks _ (act _ _) => exact (fun _ => I)
  | |- asks _ (look _) => exact (fun _ => I)
  | |- asks _ (ask _) => exact (fun _ => I)
  | |- asks _ (rel _ _) => exact I
  | |- asks _ (PRet _) => exact I
  | |- asks _ (acq _ _) => split; [|exact I]
  | |- asks _ (rels _ _) => apply asks_rels
  end.
Ltac asks_tac := repeat (cbn beta iota; asks1).
Lemma asks_exist id : asks (fun l x => l = LMan /\ x = false) (p_exist (V := V) id).
Proof. unfold p_exist. by asks_tac. Qed.
Lemma asks_entity id : asks (fun l x => l = LMan /\ x = false) (p_entity (V := V) id).
Proof. unfold p_entity. by asks_tac. Qed.
Lemma asks_storage (t : tid) x : asks (own_store t x) (p_storage (V := V) t x).
Proof. unfold p_storage. by asks_tac. Qed.
Definition inner (l : lock) (x : bool) : Prop := match l with LMan | LRes _ => False | _ => True end.
Lemma own_inner t x l y : own_store t x l y -> inner l y.
Proof. by intros [-> _]. Qed.
Lemma ask0_look {B} w0 P (g : world -> B) (Q : B -> Prop) : (forall w, same_shape w0 w -> g w = g w0) -> Q (g w0) -> ask0 w0 P (look g) Q.
Proof. intros H HQ w Hw. cbn. by rewrite (H w Hw). Qed.
Lemma ask0_head w0 P i (Q : option (gkind * tid * tid) -> Prop) : Q (group_head i w0) -> ask0 w0 P (look (group_head i)) Q.
Proof. apply ask0_look. intros w Hs. symmetry. by apply sh_groups. Qed.
Lemma ask0_n_groups w0 P (Q : nat -> Prop) : Q (n_groups w0) -> ask0 w0 P (look n_groups) Q.
Proof. apply ask0_look. intros w Hs. symmetry. by apply shape_len. Qed.
Lemma ask0_any {A} w0 P (p : prog V A) (Q : A -> Prop) : asks P p -> (forall a, Q a) -> ask0 w0 P p Q.
Proof. intros H HQ. eapply ask0_mono; [| |by apply asks_0]; [done|]. auto. Qed.
Lemma asks_weak_storage (P : lock -> bool -> Prop) t x : P (LStore t) x -> asks P (p_storage (V := V) t x).
Proof. intros H. eapply asks_weak; [|apply asks_storage]. by intros l y [-> ->]. Qed.
Lemma ask0_group_at w0 (P : lock -> bool -> Prop) i lab ff fp fn (Q : unit -> Prop) :
  (forall k a b l x, group_head i w0 = Some (k, a, b) -> group_stores k a b l x -> P l x) -> Q tt ->
  ask0 w0 P (p_group_at (V := V) i lab ff fp fn) Q.
Proof.
  intros H HQ. unfold p_group_at. apply ask0_bind, ask0_head. apply ask0_bind.
  destruct (group_head i w0) as [[[k a] b]|] eqn:E; cbn [punwrap ask0]; [|exact I]. cbn beta iota.
  apply ask0_any; [|by intros []]. asks_tac; apply asks_weak_storage, (H k a b _ _ eq_refl);
    destruct k; first [by left|by right].
Qed.
(** the same on the world as it is *)
Lemma askw_group_at w (P : lock -> bool -> Prop) i lab ff fp fn k a b :
  group_head i w = Some (k, a, b) -> (forall l x, group_stores k a b l x -> P l x) ->
  askw P (p_group_at (V := V) i lab ff fp fn) w (fun _ _ => True).
Proof.
  intros E H. unfold p_group_at. apply askw_bind. cbn [askw look act]. rewrite E. cbn [pbind punwrap]. cbn beta iota.
  apply asks_w. asks_tac; apply asks_weak_storage, H; destruct k; first [by left|by right].
Qed.
Lemma ask0_for {A} w0 P (l : list A) (g : A -> prog V unit) : (forall x, x ∈ l -> ask0 w0 P (g x) (fun _ => True)) -> ask0 w0 P (pfor l g) (fun _ => True).
Proof.
  induction l as [|x l IH]; intros H; cbn [pfor]; [exact I|]. apply ask0_bind. eapply ask0_mono; [| |apply H; left]; [done|].
  intros _ _. apply IH. intros y Hy. apply H. by right.
Qed.
Definition with_type w (t : tid) (i : nat) : Prop := exists k a b, group_head i w = Some (k, a, b) /\ (a = t \/ b = t).
Lemma ask0_groups w0 t i n : i + n = n_groups w0 ->
  ask0 w0 (fun l x => any_group w0 l x \/ exists j, with_type w0 t j /\ l = LGroup j /\ x = true) (p_groups (V := V) t i n) (Forall (with_type w0 t)).
Proof.
  revert i. induction n as [|n IH]; intros i Hn; cbn [p_groups]; [by cbn|].
  apply ask0_bind. split; [left; exists i; split; [lia|done]|]. cbn [ask0]. apply ask0_bind, ask0_head. apply ask0_bind. cbn [ask0 rel].
  assert (ask0 w0 (fun l x => any_group w0 l x \/ exists j, with_type w0 t j /\ l = LGroup j /\ x = true) (p_groups t (S i) n) (Forall (with_type w0 t))) as K by (apply IH; lia).
  destruct (group_head i w0) as [[[k a] b]|] eqn:E; [|exact K].
  destruct ((a =? t) || (b =? t)) eqn:Et; [|exact K].
  assert (with_type w0 t i) as Hi.
  { exists k, a, b. split; [done|]. apply orb_true_iff in Et as [?%Nat.eqb_eq|?%Nat.eqb_eq]; auto. }
  apply ask0_bind. split; [right; by exists i|]. cbn [ask0]. apply ask0_bind. eapply ask0_mono; [| |exact K]; [done|].
  intros l Hl. cbn. by constructor.
Qed.
Lemma ask0_each w0 (P : lock -> bool -> Prop) gs lab ff fp fn :
  (forall i k a b l x, i ∈ gs -> group_head i w0 = Some (k, a, b) -> group_stores k a b l x -> P l x) ->
  ask0 w0 P (p_each_group (V := V) gs lab ff fp fn) (fun _ => True).
Proof.
  intros H. unfold p_each_group. apply ask0_for. intros i Hi. apply ask0_bind. apply ask0_group_at; [|exact I]. eauto.
Qed.
Definition moving w t (l : lock) (x : bool) : Prop := own_store t true l x \/ any_group w l x \/ groups_of w t l x.
Lemma ask0_gone w0 t : forall l x, (any_group w0 l x \/ exists j, with_type w0 t j /\ l = LGroup j /\ x = true) -> moving w0 t l x.
Proof.
  intros l x [H|(j & (k & a & b & E & Ht) & -> & ->)]; right; [by left|right]. exists j, k, a, b. split; [done|]. split; [done|]. by left.
Qed.
Lemma ask0_work w0 t gs lab ff fp fn : Forall (with_type w0 t) gs -> ask0 w0 (moving w0 t) (p_each_group (V := V) gs lab ff fp fn) (fun _ => True).
Proof.
  intros F. apply ask0_each. intros i k a b l x Hi E Hg. rewrite Forall_forall in F. destruct (F i Hi) as (k' & a' & b' & E' & Ht).
  rewrite E in E'. injection E' as <- <- <-. right. right. exists i, k, a, b. split; [done|]. split; [done|]. by right.
Qed.
Lemma ask0_handle_attach w0 t id (v : V) : ask0 w0 (moving w0 t) (p_handle_attach t id v) (fun _ => True).
Proof.
  unfold p_handle_attach. apply ask0_bind, ask0_any; [exact (fun _ => I)|]. intros b. apply ask0_bind, ask0_any; [by destruct b|]. intros [].
  apply ask0_bind. split; [by left|]. cbn [ask0]. apply ask0_bind, ask0_any; [exact (fun _ => I)|]. intros [].
  apply ask0_bind. cbn [ask0 rel]. apply ask0_bind, ask0_n_groups. apply ask0_bind.
  eapply ask0_mono; [apply ask0_gone| |by apply ask0_groups]. intros gs. apply ask0_work.
Qed.
Lemma ask0_handle_detach w0 t id : ask0 w0 (moving w0 t) (p_handle_detach (V := V) t id) (fun _ => True).
Proof.
  unfold p_handle_detach. apply ask0_bind, ask0_any; [exact (fun _ => I)|]. intros b. apply ask0_bind, ask0_any; [by destruct b|]. intros [].
  apply ask0_bind, ask0_n_groups. apply ask0_bind.
  eapply ask0_mono; [apply ask0_gone| |by apply ask0_groups]. intros gs F. apply ask0_bind.
  eapply ask0_mono; [| |by apply ask0_work]; [done|]. intros _ _. apply ask0_any; [|done]. asks_tac. by left.
Qed.
Lemma ask0_find_in w0 ord id i n : i + n = n_groups w0 -> ask0 w0 (removal w0 ord) (p_find_in (V := V) id i n) (Forall (fun j => j < n_groups w0)).
Proof.
  revert i. induction n as [|n IH]; intros i Hn; cbn [p_find_in]; [by cbn|].
  apply ask0_bind. split; [cbn; lia|]. cbn [ask0]. apply ask0_bind, ask0_head. apply ask0_bind.
  destruct (group_head i w0) as [[[k a] b]|] eqn:E; cbn [punwrap ask0]; [|exact I]. cbn beta iota.
  apply ask0_bind, ask0_any; [apply asks_weak_storage; right; exists i, k, a, b; auto|]. intros _.
  apply ask0_bind, ask0_any; [apply asks_weak_storage; right; exists i, k, a, b; auto|]. intros _.
  apply ask0_bind, ask0_any; [exact (fun _ => I)|]. intros need. apply ask0_bind. cbn [ask0 rel]. apply ask0_bind. cbn [ask0 rel]. apply ask0_bind. cbn [ask0 rel].
  assert (ask0 w0 (removal w0 ord) (p_find_in id (S i) n) (Forall (fun j => j < n_groups w0))) as K by (apply IH; lia).
  destruct need; [|exact K]. apply ask0_bind. split; [cbn; lia|]. cbn [ask0]. apply ask0_bind. eapply ask0_mono; [| |exact K]; [done|].
  intros l Hl. cbn. constructor; [lia|done].
Qed.
Lemma asks_find_storages id ord0 ord : asks (fun l x => exists t, t ∈ ord0 ++ ord /\ l = LStore t) (p_find_storages (V := V) id ord).
Proof.
  revert ord0. induction ord as [|t ord IH]; intros ord0; cbn [p_find_storages]; [exact I|].
  assert (t ∈ ord0 ++ t :: ord) as Ht by (apply elem_of_app; right; left).
  pose proof (IH (ord0 ++ [t])) as K. rewrite <- app_assoc in K. asks_tac; try (by exists t); exact K.
Qed.
Lemma ask0_remove w0 id ord : ask0 w0 (removal w0 ord) (p_remove (V := V) id ord) (fun _ => True).
Proof.
  unfold p_remove. apply ask0_bind, ask0_any; [eapply asks_weak; [|apply asks_exist]; by intros l x [-> _]|]. intros b.
  apply ask0_bind, ask0_any; [by destruct b|]. intros []. apply ask0_bind, ask0_n_groups. apply ask0_bind.
  eapply ask0_mono; [| |by apply ask0_find_in]; [done|]. intros gs _. apply ask0_bind. eapply ask0_mono; [| |apply (ask0_each w0 (removal w0 ord))]; [done|..].
  - intros _ _. apply ask0_bind, ask0_any; [eapply asks_weak; [|apply (asks_find_storages id [] ord)]; intros l x (t & Ht & ->); by left|]. intros ts.
    apply ask0_any; [|done]. asks_tac; try done. clear. induction ts as [|t ts IH]; cbn [pfor]; [exact I|]. asks_tac. exact IH.
  - intros i k ta tb l x _ E Hg. assert (exists t y, own_store t y l x /\ (ta = t \/ tb = t)) as (t & y & [-> _] & Ht).
    { destruct k, Hg as [Hg|Hg]; by eexists _, _; split; [exact Hg|]; auto. }
    right. exists i, k, ta, tb. done.
Qed.
Lemma asks_find_group k a b i n : asks (fun l x => (exists i, l = LGroup i) /\ x = false) (p_find_group (V := V) k a b i n).
Proof. revert i. induction n as [|n IH]; intros i; cbn [p_find_group]; [exact I|]. asks_tac; try done. split; [by eexists|done]. Qed.
Lemma asks_open q : asks (query_needs q) (p_open (V := V) q).
Proof.
  induction q as [m t|q1 IH1 q2 IH2|q1 IH1 q2 IH2 q3 IH3|q1 IH1 q2 IH2 q3 IH3 q4 IH4|q1 IH1 q2 IH2 q3 IH3 q4 IH4 q5 IH5|q1 IH1 q2 IH2|q1 IH1 q2 IH2|k ma mb a b];
    cbn [p_open query_needs].
  - unfold p_ref, p_downcast. by asks_tac.
  - asks_tac; (eapply asks_weak; [|eassumption]); tauto.
  - asks_tac; (eapply asks_weak; [|eassumption]); tauto.
  - asks_tac; (eapply asks_weak; [|eassumption]); tauto.
  - asks_tac; (eapply asks_weak; [|eassumption]); tauto.
  - asks_tac; (eapply asks_weak; [|eassumption]); tauto.
  - asks_tac; (eapply asks_weak; [|eassumption]); tauto.
  - unfold p_open_group, p_downcast. asks_tac; try (by left); try (by right; left);
      try (right; right; split; [by eexists|done]); try (eapply asks_weak; [|apply asks_find_group]; intros l x [[j ->] ->]; right; right; split; [by eexists|done]).
    destruct k; asks_tac.
Qed.
Lemma find_group_in w k a b i n : i + n = n_groups w -> askw (any_group w) (p_find_group (V := V) k a b i n) w (fun _ w' => w' = w).
Proof.
  revert i. induction n as [|n IH]; intros i Hn; cbn [p_find_group]; [done|].
  apply askw_bind. split; [exists i; split; [lia|done]|]. cbn. destruct (bool_decide _); [done|]. apply IH. lia.
Qed.
Lemma owned_in w g i n : i + n = n_groups w -> askw (any_group w) (p_owned (V := V) g i n) w (fun _ w' => w' = w).
Proof.
  revert i. induction n as [|n IH]; intros i Hn; cbn [p_owned]; [done|].
  apply askw_bind. split; [exists i; split; [lia|done]|]. cbn. destruct (owned_at _ _ _); [done|]. apply IH. lia.
Qed.
Lemma askw_weak {A} (P P' : lock -> bool -> Prop) (p : prog V A) w Q : (forall l x, P l x -> P' l x) -> askw P p w Q -> askw P' p w Q.
Proof.
  intros HP. revert w. induction p as [a| | | |l x p IH|l x p IH|C lab g kk IH]; intros w; cbn [askw]; auto.
  - intros [H1 H2]. auto.
  - destruct (g w) as [[b| | |] w']; auto.
Qed.
Lemma askw_make_group w k a b : askw (needs w (MakeGroup k a b)) (p_make_group k a b) w (fun _ _ => True).
Proof.
  unfold p_make_group. apply askw_bind. cbn [askw look act]. apply askw_bind. eapply askw_weak; [by intros l x H; left; apply H|].
  eapply askw_mono; [|by apply find_group_in]. intros found w1 ->. apply askw_bind. destruct (negb _); cbn [passert askw]; [|exact I].
  apply askw_bind. eapply askw_weak; [by intros l x H; left; apply H|]. eapply askw_mono; [|by apply owned_in]. intros c w1 ->.
  apply askw_bind. destruct (negb c); cbn [passert askw]; [|exact I].
  apply askw_bind. cbn -[p_group_at needs]. split; [right; by left|].
  apply askw_bind. eapply askw_mono; [|eapply (askw_group_at _ _ _ _ _ _ _ k a b)].
  - done.
  - unfold group_head. cbn [w_groups set_groups]. unfold n_groups. rewrite lookup_app_r, Nat.sub_diag by lia. by destruct k.
  - intros l x H. right. by right.
Qed.
(** An exclusive call asks for no other locks. *)
Lemma asks_guard l x lab there (o : op V) : asks (fun l' x' => l' = l /\ x' = x) (via_guard l x lab there o).
Proof. unfold via_guard. by asks_tac. Qed.
Ltac weak H := eapply asks_weak; [|apply H]; let l := fresh "l" in let x := fresh "x" in intros l x; cbn;
  first [by intros [-> ->]|by intros [-> _]|by intros [[? ->] ->]|by destruct l|by intros ?; right].
Lemma wp_any_call w o : match o with Register _ | RegisterRes _ _ | MakeGroup _ _ _ | BatchAttach _ _ _ _ => False | _ => True end ->
  wp (V := V) w nolt False True [] [] (p_call o) (fun _ _ => True).
Proof. intros H. apply wp_call; [|done]. by apply any_op. Qed.
Lemma asks_excl o w : askw (needs w o) (p_excl (V := V) o) w (fun _ _ => True).
Proof.
  assert (forall Q, ask0 w (needs w o) (p_call o) Q -> match o with Register _ | RegisterRes _ _ | MakeGroup _ _ _ | BatchAttach _ _ _ _ => False | _ => True end ->
    askw (needs w o) (p_call o) w (fun _ _ => True)) as K.
  { intros Q H N. eapply askw_mono; [|eapply (ask0_w w nolt True [] _ _ _ Q w (shape_refl w)); [by apply wp_any_call|exact H]]. done. }
  destruct o; cbn [p_excl].
  all: try (apply asks_w; cbn [p_call]; first [exact (fun _ => I)|apply asks_guard]).
  - apply asks_w. cbn [p_call]. unfold p_new_entity. asks_tac; try done; weak asks_entity.
  - apply asks_w. cbn [p_call]. unfold p_new_entities. by asks_tac.
  - apply (K (fun _ => True)); [|done]. cbn [p_call needs]. apply ask0_bind. eapply ask0_mono; [| |apply ask0_remove]; [done|]. intros [] _. cbn. exact I.
  - apply asks_w. cbn [p_call]. asks_tac; weak asks_exist.
  - apply (K (fun _ => True)); [|done]. cbn [p_call needs]. apply ask0_bind, ask0_any; [eapply asks_weak; [|apply asks_entity]; intros l x H; by left|]. intros b. apply ask0_bind, ask0_any; [by destruct b|]. intros [].
    apply ask0_bind. eapply ask0_mono; [| |apply ask0_handle_attach]; [intros l x H; right; exact H|]. intros [] _. by cbn.
  - apply (K (fun _ => True)); [|done]. cbn [p_call needs]. apply ask0_bind, ask0_any; [eapply asks_weak; [|apply asks_entity]; intros l x H; by left|]. intros b. apply ask0_bind, ask0_any; [by destruct b|]. intros [].
    apply ask0_bind. eapply ask0_mono; [| |apply ask0_handle_detach]; [intros l x H; right; exact H|]. intros r _. by cbn.
  - apply asks_w. unfold p_batch. asks_tac; try (by left). weak asks_storage.
  - apply askw_bind. eapply askw_mono; [|apply askw_make_group]. done.
  - apply asks_w. cbn [p_call]. asks_tac. apply asks_open.
  - apply asks_w. cbn [p_call]. asks_tac. apply asks_open.
Qed.

(** ** Alone, an exclusive call lock by lock does what ModelStep.v says *)
Lemma rt_owned g i n h w : i + n = length (w_groups w) -> no_group h ->
  runs_to (p_owned g i n) h w (Ret (existsb (fun h => existsb (g_owned g) (g_owning h)) (drop i (w_groups w)))) w h.
Proof.
  intros Hl F. revert i Hl. induction n as [|n IH]; intros i Hl; cbn [p_owned].
  - rewrite drop_ge by lia. apply rt_ret.
  - destruct (lookup_lt_is_Some_2 (w_groups w) i) as [g1 Hg]; [lia|]. rewrite (drop_S _ g1 i Hg). cbn [existsb].
    eapply rt_bind; [apply rt_acq, conflict_free, F|]. eapply rt_bind; [apply rt_look|]. eapply rt_bind; [apply rt_rel|].
    assert (owned_at g i w = existsb (g_owned g) (g_owning g1)) as -> by (unfold owned_at; by rewrite Hg).
    destruct (existsb (g_owned g) (g_owning g1)); [apply rt_ret|]. apply IH. lia.
Qed.
Lemma ra_make_group k a b w : runs_as (p_make_group k a b) [] (make_group k a b) w [].
Proof.
  unfold p_make_group, make_group. apply ra_get. eapply ra_skip; [apply rt_look|].
  pose proof (rt_find_group k a b 0 (n_groups w) [] w eq_refl (fun _ => eq_refl)) as R. rewrite drop_0 in R.
  eapply ra_skip; [exact R|]. rewrite has_find. eapply ra_bind; [apply ra_assert|]. intros [] w1 E.
  assert (w1 = w) as -> by (destruct (negb _); by injection E). clear E.
  pose proof (rt_owned (new_group k a b) 0 (n_groups w) [] w eq_refl none_group) as R'. rewrite drop_0 in R'.
  eapply ra_skip; [exact R'|]. eapply ra_bind; [apply ra_assert|]. intros [] w1 E.
  assert (w1 = w) as -> by (destruct (negb _); by injection E). clear E.
  eapply ra_bind.
  { eapply (ra_ext _ _ (let! w0 := get in put (set_groups (w_groups w0 ++ [new_group k a b]) w0))); [done|]. apply ra_act. }
  intros [] w1 _. eapply ra_skip; [by apply rt_acq|]. eapply ra_then.
  { apply ra_group_at. apply no_store_cons, none_store. }
  intros [] w2 _. apply rt_rel.
Qed.
Lemma ra_excl o w : no_twice (FAct (Do o)) -> runs_as (p_excl o) [] (step o) w [].
Proof.
  intros N. destruct o; cbn [p_excl]; try (by apply ra_call); try apply ra_act; cbn [step].
  - assert (runs_as (acq LMan false ;;; p_batch lo hi t vs) [] (entities_attach lo hi t vs) w [(LMan, false)]) as X.
    { eapply ra_skip; [by apply rt_acq|]. apply ra_batch, man_store. }
    assert (runs_as (pbind (acq LMan false ;;; p_batch lo hi t vs) (fun _ => rel LMan false ;;; PRet (@OUnit V))) []
      (fmapM (fun _ => @OUnit V) (entities_attach lo hi t vs)) w []) as Y.
    { eapply ra_fmap; [exact X|]. intros [] w1 _. eapply rt_bind; [apply rt_rel|apply rt_ret]. }
    clear X. rename Y into X.
    unfold runs_as, runs_to in X |- *. destruct X as (h1 & X & Y). exists h1. split; [|exact Y]. rewrite <- X.
    rewrite !alone_bind. destruct (alone (acq LMan false) [] w) as [[[[]| | |] w1] h2]; try done.
    rewrite !alone_bind. by destruct (alone (p_batch lo hi t vs) h2 w1) as [[[[]| | |] w2] h3].
  - eapply ra_fmap; [apply ra_make_group|]. intros [] w1 _. apply rt_ret.
Qed.

(** ** Lives with forgotten guards *)

Lemma excl_as o lost w r w' h : no_twice (FAct (Do o)) -> alone_among lost (p_excl o) [] w = (r, w', h) -> r <> Block ->
  step o w = (r, w') /\ forall a, r = Ret a -> h = [].
Proof.
  intros N E Hr. destruct (among_cases (needs w o) lost (p_excl o) [] w _ (asks_excl o w)) as [Ea|[Eb _]]; [|rewrite E in Eb; done].
  destruct (ra_excl o w N) as (h1 & X & P). rewrite E, X in Ea. injection Ea as -> -> ->. split; [by destruct (step o w)|].
  intros a Ha. destruct (fst (step o w)); try done. by apply Permutation_nil_r in P.
Qed.
(** an exclusive call that ends keeps no guard *)
Lemma fact_do o f f' : no_twice (FAct (Do o)) -> fact (FAct (Do o)) f = Some f' ->
  act1 (Do o) (fl_life f) = Some (fl_life f') /\ fl_lost f' = filter (fun g => renewed o g = false) (fl_lost f).
Proof.
  intros N. cbn [fact act1]. destruct (forallb over _); [|done].
  destruct (alone_among (fl_lost f) (p_excl o) [] (lf_world (fl_life f))) as [[[r| | |] w'] h] eqn:E; try done;
    destruct (excl_as _ _ _ _ _ _ N E) as [-> Hh]; try done; intros [= <-]; cbn [fl_life fl_lost]; split; try done.
  by rewrite (Hh r eq_refl).
Qed.
Lemma fact_plain b f f' : no_twice b -> fact b f = Some f' -> act1 (plain b) (fl_life f) = Some (fl_life f').
Proof.
  intros N. destruct b as [[cl|i|o]|i]; cbn [fact plain].
  - intros H. apply fmap_Some in H as (s' & E & ->). exact E.
  - destruct (wanted i _) as [[l x]|]; [destruct (conflict _ l x); [done|]|]; intros H; apply fmap_Some in H as (s' & E & ->); exact E.
  - by intros [H _]%fact_do.
  - destruct (dropping i _); [|done]. destruct (act1 (Move i) (fl_life f)) as [s'|] eqn:E; [|done]. intros [= <-]. reflexivity.
Qed.
Lemma flived_plain bs f f' : Forall no_twice bs -> flived bs f = Some f' -> lived (plain <$> bs) (fl_life f) = Some (fl_life f').
Proof.
  revert f. induction bs as [|b bs IH]; intros f N; cbn [flived fmap list_fmap lived]; [by intros [= <-]|].
  apply Forall_cons in N as [Nb N]. destruct (fact b f) as [f1|] eqn:E; [|done]. rewrite (fact_plain b f f1 Nb E). by apply IH.
Qed.
Lemma flived_app b1 b2 f : flived (V := V) (b1 ++ b2) f = match flived b1 f with Some f' => flived b2 f' | None => None end.
Proof. revert f. induction b1 as [|b b1 IH]; intros f; cbn [app flived]; [done|]. destruct (fact b f); [apply IH|done]. Qed.

(** Every life in which guards are forgotten is, but for the locks, a life in
    which they are dropped: so all that C54-C56 say holds in it. *)
Theorem C57_lives bs f : Forall no_twice bs -> flived bs fborn = Some f -> lived (plain <$> bs) born = Some (fl_life f).
Proof. apply (flived_plain bs fborn). Qed.
(** In particular nothing is ever undefined behaviour. *)
Theorem C57_lives_safe bs f : Forall no_twice bs -> orderly (plain <$> bs) -> flived bs fborn = Some f ->
  (forall i, ~ crashed (conf_of (fl_life f)) i) /\ forall o, may (fl_life f) (Do o) -> tells (lf_world (fl_life f)) o <> UB.
Proof. intros N O H. exact (C54_safe _ _ O (C57_lives bs f N H)). Qed.

(** Conversely what would be possible if the forgotten guards had been dropped
    is possible, and does the same; or somebody waits for one of them. *)
Definition waits f (a : action V) : Prop :=
  match a with
  | Enter _ => False
  | Move i => exists l x, wants (conf_of (fl_life f)) i l x /\ shut (fl_lost f) l x
  | Do o => exists l x, needs (lf_world (fl_life f)) o l x /\ shut (fl_lost f) l x
  end.
Theorem C57_lives_wait f a s' : no_twice (FAct a) -> act1 a (fl_life f) = Some s' ->
  (exists f', fact (FAct a) f = Some f' /\ fl_life f' = s') \/ (fact (FAct a) f = None /\ waits f a).
Proof.
  intros N E. destruct a as [cl|i|o]; cbn [fact waits].
  - left. eexists. rewrite E. done.
  - unfold wanted. destruct (cf_threads (conf_of (fl_life f)) !! i) as [[h p]|] eqn:Ht.
    2:{ left. eexists. rewrite E. done. }
    destruct p as [a| | | |l x p|l x p|C lab g kk]; try (left; eexists; rewrite E; done).
    destruct (conflict (fl_lost f) l x) eqn:Ec; [|left; eexists; rewrite E; done].
    right. split; [done|]. exists l, x. split; [by eexists _, _|by apply shut_iff].
  - cbn [act1] in E. destruct (forallb over _); [|done].
    destruct (ra_excl o (lf_world (fl_life f)) N) as (h1 & X & _).
    destruct (among_cases (needs (lf_world (fl_life f)) o) (fl_lost f) (p_excl o) [] (lf_world (fl_life f)) _ (asks_excl o _)) as [Ea|[Eb W]].
    + left. rewrite Ea, X. destruct (step o (lf_world (fl_life f))) as [[r| | |] w']; cbn [fst snd]; try done; injection E as <-; by eexists.
    + right. split; [|done]. destruct (alone_among _ _ _ _) as [[[r| | |] w'] h]; done.
Qed.
Theorem C57_needs f o s' : no_twice (FAct (Do o)) -> act1 (Do o) (fl_life f) = Some s' ->
  (forall l x, needs (lf_world (fl_life f)) o l x -> ~ shut (fl_lost f) l x) -> exists f', fact (FAct (Do o)) f = Some f' /\ fl_life f' = s'.
Proof.
  intros N E H. destruct (C57_lives_wait f (Do o) s' N E) as [?|[_ (l & x & H1 & H2)]]; [done|]. by destruct (H l x).
Qed.
(** A life in which nothing is forgotten is a life of C54. *)
Theorem C57_nothing_lost bs s : Forall no_twice bs -> Forall nothing_forgotten bs ->
  lived (plain <$> bs) born = Some s <-> flived bs fborn = Some (FL s []).
Proof.
  intros N F. split; [|intros H; by apply (C57_lives bs (FL s []))].
  unfold fborn. generalize (@born V). induction bs as [|b bs IH]; intros s0; cbn [flived fmap list_fmap lived]; [by intros [= ->]|].
  apply Forall_cons in N as [Nb N]. apply Forall_cons in F as [Fb F]. destruct b as [a|i]; [|done]. cbn [plain].
  destruct (act1 a s0) as [s1|] eqn:E; [|done]. intros H.
  assert (fact (FAct a) (FL s0 []) = Some (FL s1 [])) as ->; [|by apply IH].
  destruct (C57_lives_wait (FL s0 []) a s1 Nb E) as [([s1' lost] & Ef & El)|[_ W]].
  - cbn in El. subst s1'. rewrite Ef. do 2 f_equal. destruct a as [cl|i|o].
    + cbn [fact fl_lost fl_life] in Ef. apply fmap_Some in Ef as (? & _ & [= _ ->]). done.
    + cbn [fact fl_lost fl_life] in Ef. destruct (wanted i _) as [[l x]|]; [destruct (conflict _ l x); [done|]|]; apply fmap_Some in Ef as (? & _ & [= _ ->]); done.
    + apply fact_do in Ef as [_ Hl]; [|done]. exact Hl.
  - exfalso. destruct a as [cl|i|o]; cbn in W; [done|destruct W as (l & x & _ & y & Hin & _)..]; by apply elem_of_nil in Hin.
Qed.

(** A forgotten guard stays alive for ever, but on a resource that is
    registered anew. *)
Definition renews (b : faction V) (l : lock) : Prop := exists r v, b = FAct (Do (RegisterRes r v)) /\ l = LRes r.
Lemma renewed_iff o (g : lock * bool) : renewed o g = true <-> renews (FAct (Do o)) g.1.
Proof.
  destruct o; cbn [renewed]; try (split; [done|intros (r0 & v0 & [=] & _)]). rewrite bool_decide_eq_true. split.
  - intros H. by eexists _, _.
  - by intros (r0 & v0 & [= -> ->] & ->).
Qed.
(** What is lost after an action: a guard that [Forget] forgets, *)
Theorem C57_forgets i f f' : fact (Forget i) f = Some f' <->
  act1 (Move i) (fl_life f) = Some (fl_life f') /\
  exists h l x k, cf_threads (conf_of (fl_life f)) !! i = Some (Th h (PRel l x k)) /\ fl_lost f' = (l, x) :: fl_lost f.
Proof.
  cbn [fact]. unfold dropping. destruct (cf_threads (conf_of (fl_life f)) !! i) as [[h p]|] eqn:Hi.
  2:{ split; [done|]. intros (_ & h & l & x & k & [=] & _). }
  destruct p as [a| | | |l x k|l x k|C lab g k]; try (split; [done|intros (_ & h0 & l0 & x0 & k0 & [=] & _)]).
  destruct (act1 (Move i) (fl_life f)) as [s'|] eqn:E.
  - split.
    + intros [= <-]. split; [done|]. by exists h, l, x, k.
    + intros ([= ->] & h0 & l0 & x0 & k0 & [= -> -> -> ->] & El). destruct f' as [s1 l1]. cbn [fl_life fl_lost] in *. by rewrite El.
  - split; [done|]. by intros ([=] & _).
Qed.
(** and nothing else; no call keeps a guard, or gives one back that is lost,
    but on a resource that is registered anew. *)
Theorem C57_lost_exact a f f' : no_twice (FAct a) -> fact (FAct a) f = Some f' ->
  forall g, g ∈ fl_lost f' <-> g ∈ fl_lost f /\ ~ renews (FAct a) g.1.
Proof.
  intros N H g. destruct a as [cl|i|o].
  - cbn [fact] in H. apply fmap_Some in H as (s' & E & ->). cbn [fl_lost]. split; [|by intros [? _]]. intros H. split; [done|]. by intros (? & ? & [=] & _).
  - assert (fl_lost f' = fl_lost f) as ->.
    { cbn [fact] in H. destruct (wanted i _) as [[l x]|]; [destruct (conflict _ l x); [done|]|]; by apply fmap_Some in H as (s' & E & ->). }
    split; [|by intros [? _]]. intros Hg. split; [done|]. by intros (? & ? & [=] & _).
  - apply fact_do in H as [_ ->]; [|done]. rewrite elem_of_list_filter, <- renewed_iff.
    split; [intros [-> ?]; split; [done|discriminate]|intros [? Hn]; split; [|done]]. by destruct (renewed o g).
Qed.
Lemma fact_lost b f f' l y : fact b f = Some f' -> (l, y) ∈ fl_lost f -> (l, y) ∈ fl_lost f' \/ renews b l.
Proof.
  destruct b as [[cl|i|o]|i].
  - cbn [fact]. intros H. apply fmap_Some in H as (s' & E & ->). by left.
  - cbn [fact]. destruct (wanted i _) as [[l' x']|]; [destruct (conflict _ l' x'); [done|]|]; intros H; apply fmap_Some in H as (s' & E & ->); by left.
  - cbn [fact]. destruct (forallb over _); [|done]. intros H Hin.
    assert (exists s' h, f' = FL s' (h ++ filter (fun g => renewed o g = false) (fl_lost f))) as (s' & h & ->).
    { destruct (alone_among _ _ _ _) as [[[r| | |] w'] h]; try done; injection H as <-; [by eexists _, h|by eexists _, []]. }
    destruct (renewed o (l, y)) eqn:E.
    + right. by apply renewed_iff in E.
    + left. cbn [fl_lost]. apply elem_of_app. right. by apply elem_of_list_filter.
  - intros H Hin. apply C57_forgets in H as (_ & h & l0 & x & k & _ & ->). left. by right.
Qed.
Theorem C57_only_forgotten bs f f' g : Forall no_twice bs -> flived bs f = Some f' -> g ∈ fl_lost f' ->
  g ∈ fl_lost f \/ exists pre i post f1 h k, bs = pre ++ Forget i :: post /\ flived pre f = Some f1 /\
    cf_threads (conf_of (fl_life f1)) !! i = Some (Th h (PRel g.1 g.2 k)).
Proof.
  revert f. induction bs as [|b bs IH]; intros f N; cbn [flived]; [intros [= <-]; by left|].
  apply Forall_cons in N as [Nb N]. destruct (fact b f) as [f1|] eqn:E; [|done]. intros H Hin.
  destruct (IH f1 N H Hin) as [Hg|(pre & i & post & f2 & h & k & -> & Hp & Hi)].
  - destruct b as [a|i].
    + left. apply (C57_lost_exact a f f1 Nb E) in Hg as [Hg _]. exact Hg.
    + pose proof E as E'. apply C57_forgets in E' as (_ & h & l & x & k & Hi & Hl). rewrite Hl in Hg. apply elem_of_cons in Hg as [->|Hg]; [|by left].
      right. exists [], i, bs, f, h, k. done.
  - right. exists (b :: pre), i, post, f2, h, k. split; [done|]. split; [|done]. cbn [flived]. by rewrite E.
Qed.
Theorem C57_lost_stay bs f f' l y : flived bs f = Some f' -> (l, y) ∈ fl_lost f -> (l, y) ∈ fl_lost f' \/ exists b, b ∈ bs /\ renews b l.
Proof.
  revert f. induction bs as [|b bs IH]; intros f; cbn [flived]; [intros [= <-]; by left|].
  destruct (fact b f) as [f1|] eqn:E; [|done]. intros H Hin. destruct (fact_lost b f f1 l y E Hin) as [H1|H1].
  - destruct (IH f1 H H1) as [?|(b' & Hb & Hr)]; [by left|right; exists b'; split; [by right|done]].
  - right. exists b. split; [by left|done].
Qed.

(** Calls that then never return: the first lock they ask for. *)
Definition first_lock w (o : op V) : option (lock * bool) :=
  let reg t x := if has_registered t w then Some (LStore t, x) else None in
  match o with
  | CreateEntity | CreateEntities _ => Some (LMan, true)
  | Exist _ | Attach _ _ _ | Detach _ _ | RemoveEntity _ _ | BatchAttach _ _ _ _ => Some (LMan, false)
  | ReadComp t _ | StoreCount t | StoreIsEmpty t | StoreExist t _ | StoreGet t _ | StoreData t => reg t false
  | WriteComp t _ _ | StoreGetMut t _ _ | StoreDataSet t _ _ => reg t true
  | Query (QRef m t) | QueryMut (QRef m t) _ => reg t m
  | ReadRes r => if has_res r w then Some (LRes r, false) else None
  | WriteRes r _ => if has_res r w then Some (LRes r, true) else None
  | MakeGroup _ _ _ => if bool_decide (w_groups w = []) then None else Some (LGroup 0, false)
  | _ => None
  end.
Theorem C57_hindered f o l x : first_lock (lf_world (fl_life f)) o = Some (l, x) -> shut (fl_lost f) l x -> fact (FAct (Do o)) f = None.
Proof.
  intros Hf Hs. apply shut_iff in Hs. cbn [fact]. destruct (forallb over _); [|done].
  assert (alone_among (fl_lost f) (p_excl o) [] (lf_world (fl_life f)) = (Block, lf_world (fl_life f), [])) as ->; [|done].
  destruct o; cbn [first_lock] in Hf; try done;
    try (destruct q; try done); try (destruct (has_registered _ _) eqn:R; [|done]); try (destruct (has_res _ _) eqn:R; [|done]);
    try (destruct (bool_decide _) eqn:R; [done|]; apply bool_decide_eq_false in R; unfold p_excl, p_make_group, n_groups; destruct (w_groups (lf_world (fl_life f))) eqn:G; [done|]);
    injection Hf as <- <-; cbn -[conflict]; rewrite ?R, ?G; cbn -[conflict]; by rewrite Hs.
Qed.

(** ** What is behind a forgotten guard stays as it is *)
(** [safe l m p w]: along what [p] does alone on [w], having [m], the part
    [l] of the world changes only under an exclusive guard of it. *)
Fixpoint safe (l0 : lock) (m : list (lock * bool)) {A} (p : prog V A) w (Q : A -> list (lock * bool) -> world -> Prop) : Prop :=
  match p with
  | PRet a => Q a m w
  | PAcq l x k => safe l0 ((l, x) :: m) k w Q
  | PRel l x k => safe l0 (drop_hold l x m) k w Q
  | PAct _ g k => (part_eq l0 w (g w).2 \/ (l0, true) ∈ m) /\ match g w with (Ret b, w') => safe l0 m (k b) w' Q | _ => True end
  | _ => True
  end.
Lemma safe_bind l0 m {A B} (p : prog V A) (k : A -> prog V B) w Q : safe l0 m p w (fun a m' w' => safe l0 m' (k a) w' Q) -> safe l0 m (pbind p k) w Q.
Proof.
  revert m w. induction p as [a| | | |l x p IH|l x p IH|C lab g kk IH]; intros m w; cbn [safe pbind]; auto.
  intros [H1 H2]. split; [done|]. destruct (g w) as [[b| | |] w']; auto.
Qed.
Lemma safe_mono l0 m {A} (p : prog V A) w (Q Q' : A -> list (lock * bool) -> world -> Prop) : (forall a m' w', Q a m' w' -> Q' a m' w') -> safe l0 m p w Q -> safe l0 m p w Q'.
Proof.
  intros HQ. revert m w. induction p as [a| | | |l x p IH|l x p IH|C lab g kk IH]; intros m w; cbn [safe]; auto.
  intros [H1 H2]. split; [done|]. destruct (g w) as [[b| | |] w']; auto.
Qed.
Lemma elem_drop_hold l x m g : g ∈ drop_hold l x m -> g ∈ m.
Proof.
  induction m as [|y m IH]; cbn [drop_hold]; [done|]. destruct (decide (y = (l, x))); [by right|].
  intros [->|H]%elem_of_cons; [by left|right; auto].
Qed.
Lemma among_frame l0 y lost {A} (p : prog V A) m w Q r w' h' : (l0, y) ∈ lost -> (l0, true) ∉ m -> safe l0 m p w Q ->
  alone_among lost p m w = (r, w', h') -> part_eq l0 w w'.
Proof.
  intros Hl. revert m w. induction p as [a| | | |l x p IH|l x p IH|C lab g kk IH]; intros m w Hm; cbn [safe alone_among]; try (intros _ [= _ <- _]; apply part_refl).
  - intros S. rewrite conflict_app. destruct (conflict m l x || conflict lost l x) eqn:E; [intros [= _ <- _]; apply part_refl|].
    apply IH; [|done]. intros [[= -> <-]|H]%elem_of_cons; [|done]. apply orb_false_elim in E as [_ E]. apply not_true_iff_false in E.
    apply E, shut_iff. exists y. split; [done|by destruct y].
  - apply IH. intros H. by apply elem_drop_hold in H.
  - intros [[H1|H1] H2]; [|done]. destruct (g w) as [[b| | |] w1]; cbn [snd] in H1; try (by intros [= _ <- _]).
    intros E. eapply part_trans; [exact H1|]. by eapply IH.
Qed.
Lemma wp_safe w0 lt pn m {A} (p : prog V A) Q0 w l0 : same_shape w0 w -> wp w0 lt False pn [] m p Q0 -> safe l0 m p w (fun a _ w' => same_shape w0 w').
Proof.
  revert m w. induction p as [a| | | |l x p IH|l x p IH|C lab g kk IH]; intros m w Hs; cbn [wp safe]; try done.
  - intros [_ H]. by apply IH.
  - intros [_ H]. by apply IH.
  - intros [[Hc _] H]. rewrite app_nil_r in Hc. destruct (Hc w Hs) as (K1 & K2 & _). split.
    + destruct (decide ((l0, true) ∈ m)); [by right|left; by apply K2].
    + assert (inv w0 False w) as Hi by (split; [done|intros []]). specialize (H w Hi). destruct (g w) as [[b| | |] w']; cbn [fst snd] in *; try done. apply IH; [by eapply shape_trans|done].
Qed.
Lemma run_group_part i ff fp fn w k a b l0 : group_head i w = Some (k, a, b) -> l0 <> LGroup i ->
  (k <> KNon -> l0 <> LStore a) -> (k = KFull -> l0 <> LStore b) -> part_eq l0 w (run_group_at (V := V) i ff fp fn w).2.
Proof.
  intros Hh Hg Ha Hb. unfold group_head in Hh. unfold run_group_at. destruct (w_groups w !! i) as [[d|d|d]|] eqn:Ei; [..|done]; injection Hh as <- <- <-.
  - destruct (w_comps w !! fd_a d) as [sa|] eqn:Ea; [|apply part_refl]. destruct (fd_a d =? fd_b d); [apply part_refl|].
    destruct (w_comps w !! fd_b d) as [sb|] eqn:Eb; [|apply part_refl]. destruct (ff _) as [o c]. cbn [snd].
    eapply part_trans; [|apply (part_group_ne l0 (set_comps _ w)); exact Hg].
    eapply part_trans; [apply (part_comp_ne l0 w (fd_a d) (St (st_ty sa) (gc_a c))); by apply Ha|].
    apply (part_comp_ne l0 (set_comps _ w)). by apply Hb.
  - destruct (w_comps w !! pd_a d) as [sa|] eqn:Ea; [|apply part_refl]. destruct (pd_a d =? pd_b d); [apply part_refl|].
    destruct (w_comps w !! pd_b d) as [sb|] eqn:Eb; [|apply part_refl]. destruct (fp _) as [o c]. cbn [snd].
    eapply part_trans; [|apply (part_group_ne l0 (set_comps _ w)); exact Hg].
    apply (part_comp_ne l0 w (pd_a d) (St (st_ty sa) (gc_a c))); by apply Ha.
  - destruct (w_comps w !! nd_a d) as [sa|] eqn:Ea; [|apply part_refl].
    destruct (w_comps w !! nd_b d) as [sb|] eqn:Eb; [|apply part_refl]. destruct (fn _) as [o c]. cbn [snd].
    by apply (part_group_ne l0 w).
Qed.
(** programs that only look *)
Fixpoint still {A} (p : prog V A) : Prop :=
  match p with
  | PAcq _ _ k | PRel _ _ k => still k
  | PAct _ g k => (forall w, (g w).2 = w) /\ forall b, still (k b)
  | _ => True
  end.
Lemma safe_still l0 m {A} (p : prog V A) w : still p -> safe l0 m p w (fun _ _ w' => w' = w).
Proof.
  revert m. induction p as [a| | | |l x p IH|l x p IH|C lab g kk IH]; intros m; cbn [still safe]; auto.
  intros [H1 H2]. pose proof (H1 w) as E. split; [left; rewrite E; apply part_refl|]. destruct (g w) as [[b| | |] w']; cbn in E; subst; auto.
Qed.
Lemma still_bind {A B} (p : prog V A) (k : A -> prog V B) : still p -> (forall a, still (k a)) -> still (pbind p k).
Proof.
  intros Hp Hk. induction p as [a| | | |l x p IH|l x p IH|C lab g kk IH]; cbn [still pbind] in *; auto.
  destruct Hp as [H1 H2]. split; auto.
Qed.
Lemma still_find_group k a b i n : still (p_find_group (V := V) k a b i n).
Proof.
  revert i. induction n as [|n IH]; intros i; cbn [p_find_group]; [done|].
  apply still_bind; [done|intros _]. apply still_bind; [done|intros h]. apply still_bind; [done|intros _]. by destruct (bool_decide _).
Qed.
Lemma still_owned g i n : still (p_owned (V := V) g i n).
Proof.
  revert i. induction n as [|n IH]; intros i; cbn [p_owned]; [done|].
  apply still_bind; [done|intros _]. apply still_bind; [done|intros h]. apply still_bind; [done|intros _]. by destruct h.
Qed.
Lemma still_assert b : still (passert (V := V) b).
Proof. by destruct b. Qed.
Lemma safe_storage l0 m t x w (Q : unit -> list (lock * bool) -> world -> Prop) : Q tt ((LStore t, x) :: m) w -> safe l0 m (p_storage (V := V) t x) w Q.
Proof.
  intros H. unfold p_storage. apply safe_bind. cbn. split; [left; apply part_refl|]. destruct (has_registered t w); exact H || exact I.
Qed.
Lemma safe_group_at l0 m i lab ff fp fn w : (LGroup i, true) ∈ m -> safe l0 m (p_group_at (V := V) i lab ff fp fn) w (fun _ _ _ => True).
Proof.
  intros Hm. unfold p_group_at. apply safe_bind. cbn [safe look act]. split; [left; apply part_refl|]. apply safe_bind.
  destruct (group_head i w) as [[[k a] b]|] eqn:Hh; cbn [safe punwrap]; [|exact I]. cbn beta iota.
  apply safe_bind, safe_storage. apply safe_bind, safe_storage. apply safe_bind. unfold act. cbn [safe]. split.
  2:{ destruct (run_group_at _ _ _ _ _) as [[?| | |] ?]; done. }
  set (xa := match k with KFull | KPart => true | KNon => false end). set (xb := match k with KFull => true | _ => false end).
  destruct (decide (l0 = LGroup i)) as [->|Hg]; [right; right; by right|].
  destruct (decide (l0 = LStore b /\ k = KFull)) as [[-> ->]|Hb]; [right; by left|].
  destruct (decide (l0 = LStore a /\ k <> KNon)) as [[-> Hk]|Ha]; [right; right; assert (xa = true) as -> by (by destruct k); left|].
  left. eapply run_group_part; [exact Hh|done|naive_solver..].
Qed.
(** the part is there *)
Definition there (l : lock) w : Prop :=
  match l with LMan => True | LGroup i => is_Some (w_groups w !! i) | LStore t => is_Some (w_comps w !! t) | LRes r => is_Some (w_res w !! r) end.
Lemma part_there l w w' : part_eq l w w' -> there l w -> there l w'.
Proof. destruct l; cbn; try done; by intros ->. Qed.
Lemma safe_excl l0 o w : there l0 w -> ~ renews (FAct (Do o)) l0 -> safe l0 [] (p_excl (V := V) o) w (fun _ _ _ => True).
Proof.
  intros Ht Hr.
  assert (match o with Register _ | RegisterRes _ _ | MakeGroup _ _ _ | BatchAttach _ _ _ _ => True | _ => safe l0 [] (p_call o) w (fun _ _ _ => True) end) as K.
  { assert (safe l0 [] (p_call o) w (fun _ _ _ => True)) as K.
    { eapply safe_mono; [|eapply (wp_safe w nolt True [] (p_call o) (fun _ _ => True) w l0 (shape_refl w))]; [done|].
      apply wp_call; [|done]. by apply any_op. }
    by destruct o. }
  destruct o; cbn [p_excl]; try exact K; clear K.
  - unfold act. cbn [safe]. split; [|by destruct (step _ _) as [[?| | |] ?]]. left. cbn [step]. rewrite ProofLoose2.fmapM_snd, PropWorld.register_eq.
    destruct (has_registered t w) eqn:E; [apply part_refl|]. cbn [snd]. destruct l0; try reflexivity. cbn in Ht |- *.
    unfold has_registered in E. apply bool_decide_eq_false in E. rewrite lookup_insert_ne; [done|]. by intros ->.
  - apply safe_bind. cbn [safe acq]. apply safe_bind. eapply safe_mono; [|eapply (wp_safe w nolt True [(LMan, false)] _ (fun _ _ => True) w l0 (shape_refl w))].
    2:{ by apply wp_batch. }
    intros [] m' w' _. apply safe_bind. by cbn.
  - apply safe_bind. unfold p_make_group. apply safe_bind. cbn [safe look act]. split; [left; apply part_refl|].
    apply safe_bind. eapply safe_mono; [|apply safe_still, still_find_group]. intros found m1 w1 ->.
    apply safe_bind. eapply safe_mono; [|apply safe_still, still_assert]. intros _ m2 w2 ->.
    apply safe_bind. eapply safe_mono; [|apply safe_still, still_owned]. intros c m3 w3 ->.
    apply safe_bind. eapply safe_mono; [|apply safe_still, still_assert]. intros _ m4 w4 ->.
    apply safe_bind. unfold act. cbn [safe]. split.
    { left. cbn. destruct l0; cbn; try done. cbn in Ht. destruct Ht as [g Hg]. symmetry. rewrite lookup_app_l; [done|]. by eapply lookup_lt_Some. }
    cbn -[p_group_at]. apply safe_bind. eapply safe_mono; [|apply safe_group_at; left]. intros [] m5 w5 _. by cbn.
  - unfold act. cbn [safe]. split; [|by destruct (step _ _) as [[?| | |] ?]]. left. cbn. destruct l0; cbn; try done.
    rewrite lookup_insert_ne; [done|]. intros <-. apply Hr. by eexists _, _.
Qed.

Lemma life_cinv acts s : lived acts born = Some s -> exists w0, cinv w0 nolt False (conf_of s).
Proof.
  intros H. destruct (C54_phases acts s H) as (acts0 & acts1 & s0 & _ & _ & _ & _ & _ & Hr). exists (lf_world s0).
  apply (reach_any _ (entered acts1)). by eexists.
Qed.
Lemma cstep_holds i c c' j th' g : cstep (V := V) i c = Some c' -> cf_threads c' !! j = Some th' -> g ∈ th_holds th' ->
  (exists th, cf_threads c !! j = Some th /\ g ∈ th_holds th /\
     forall d, i = j -> dropping i c = Some d -> th_holds th' = drop_hold d.1 d.2 (th_holds th)) \/ wanted i c = Some g.
Proof.
  unfold cstep, wanted, dropping. destruct (cf_threads c !! i) as [[h p]|] eqn:Hi; [|done]. intros E Hj Hg.
  destruct (decide (i = j)) as [<-|Hij].
  - unfold tstep in E. cbn [th_prog th_holds] in E.
    destruct p as [a| | | |l x p|l x p|C lab gg kk]; try done.
    + destruct (conflict _ l x); [done|]. injection E as <-. cbn [cf_threads] in Hj.
      rewrite list_lookup_insert in Hj by (by eapply lookup_lt_Some). injection Hj as <-. cbn [th_holds] in Hg.
      apply elem_of_cons in Hg as [->|Hg]; [by right|]. left. by exists (Th h (PAcq l x p)).
    + injection E as <-. cbn [cf_threads] in Hj. rewrite list_lookup_insert in Hj by (by eapply lookup_lt_Some). injection Hj as <-. cbn [th_holds] in Hg.
      left. exists (Th h (PRel l x p)). split; [done|]. split; [by apply elem_drop_hold in Hg|]. by intros d _ [= <-].
    + left. exists (Th h (PAct lab gg kk)).
      destruct (gg (cf_world c)) as [[b| | |] w1]; injection E as <-; cbn [cf_threads] in Hj;
        (rewrite list_lookup_insert in Hj by (by eapply lookup_lt_Some)); by injection Hj as <-.
  - destruct (tstep _ _ _) as [[th1 w1]|]; [|done]. injection E as <-. cbn [cf_threads] in Hj. rewrite list_lookup_insert_ne in Hj by done.
    left. by exists th'.
Qed.
Lemma move_conf i s s' : act1 (Move i) s = Some s' -> cstep i (conf_of (V := V) s) = Some (conf_of s').
Proof. cbn [act1]. destruct (cstep i (conf_of s)) as [c'|]; [|done]. intros [= <-]. by destruct c'. Qed.

(** A forgotten guard excludes the others as a kept one does. *)
Lemma lost_apart bs f : Forall no_twice bs -> flived bs fborn = Some f ->
  forall i l x y, guard_of (conf_of (fl_life f)) i (l, x) -> (l, y) ∈ fl_lost f -> x = false /\ y = false.
Proof.
  revert f. induction bs as [|b bs IH] using rev_ind; intros f N H.
  { injection H as <-. intros i l x y _ Hl. by apply elem_of_nil in Hl. }
  apply Forall_app in N as [N Nb]. apply Forall_singleton in Nb. rewrite flived_app in H.
  destruct (flived bs fborn) as [f1|] eqn:E1; [|done]. cbn [flived] in H. destruct (fact b f1) as [f2|] eqn:E2; [|done]. injection H as ->.
  specialize (IH f1 N eq_refl). pose proof (C57_lives bs f1 N E1) as L1. destruct (life_cinv _ _ L1) as [w0 HI].
  intros i l x y (th & Hi & Hg) Hl. destruct b as [[cl|j|o]|j]; cbn [fact] in E2.
  - apply fmap_Some in E2 as (s' & Ea & ->). cbn [act1] in Ea. injection Ea as <-. unfold conf_of in Hi. cbn [fl_life lf_users cf_threads fl_lost] in *.
    apply lookup_app_Some in Hi as [Hi|[_ Hi]].
    + apply (IH i l); [by exists th|done].
    + apply list_lookup_singleton_Some in Hi as [_ <-]. by apply elem_of_nil in Hg.
  - assert (exists s', act1 (Move j) (fl_life f1) = Some s' /\ f = FL s' (fl_lost f1) /\
      forall l' x', wanted j (conf_of (fl_life f1)) = Some (l', x') -> conflict (fl_lost f1) l' x' = false) as (s' & Ea & -> & Hw).
    { destruct (wanted j _) as [[l' x']|]; [destruct (conflict (fl_lost f1) l' x') eqn:Ec; [done|]|]; apply fmap_Some in E2 as (s' & Ea & ->);
        exists s'; (split; [done|]); (split; [done|]); intros ? ? [=]; by subst. }
    cbn [fl_life fl_lost] in *. apply move_conf in Ea. destruct (cstep_holds _ _ _ _ _ _ Ea Hi Hg) as [(th1 & Hi1 & Hg1 & _)|Hwant].
    + apply (IH i l); [by exists th1|done].
    + specialize (Hw _ _ Hwant). apply not_true_iff_false in Hw. destruct (y || x) eqn:Exy.
      * destruct Hw. apply shut_iff. by exists y.
      * by apply orb_false_elim in Exy as [-> ->].
  - destruct (forallb over _); [|done].
    assert (lf_users (fl_life f) = []) as Hu by (destruct (alone_among _ _ _ _) as [[[r| | |] w'] h]; try done; by injection E2 as <-).
    unfold conf_of in Hi. by rewrite Hu in Hi.
  - destruct (dropping j _) as [g|] eqn:Ed; [|done]. destruct (act1 (Move j) (fl_life f1)) as [s'|] eqn:Ea; [|done]. injection E2 as <-.
    cbn [fl_life fl_lost] in *. apply move_conf in Ea.
    assert (wanted j (conf_of (fl_life f1)) = None) as Hn.
    { unfold dropping in Ed. unfold wanted. destruct (cf_threads _ !! j) as [[h [| | | | | |]]|]; done. }
    destruct (cstep_holds _ _ _ _ _ _ Ea Hi Hg) as [(th1 & Hi1 & Hg1 & Hd)|Hwant]; [|by rewrite Hn in Hwant].
    apply elem_of_cons in Hl as [Hl|Hl]; [|by apply (IH i l); [exists th1|]]. subst g.
    assert (exists thj k, cf_threads (conf_of (fl_life f1)) !! j = Some thj /\ th_prog thj = PRel l y k) as (thj & k & Hj & Hp).
    { unfold dropping in Ed. destruct (cf_threads _ !! j) as [[h p]|]; [|done]. destruct p; try done. injection Ed as -> ->. by eexists _, _. }
    pose proof (ci_thr _ _ _ _ HI j thj Hj) as W. rewrite Hp in W. cbn [wp] in W. destruct W as [Hin _].
    pose proof (excl_perm _ _ (locks_split _ j thj Hj) (ci_excl _ _ _ _ HI)) as He.
    destruct (decide (j = i)) as [->|Hji].
    + rewrite Hj in Hi1. injection Hi1 as <-. specialize (Hd _ eq_refl Ed). cbn [fst snd] in Hd. rewrite Hd in Hg.
      assert (th_holds thj ≡ₚ (l, y) :: drop_hold l y (th_holds thj)) as HP.
      { apply elem_of_Permutation in Hin as [m Hm]. etrans; [exact Hm|]. constructor. rewrite (drop_perm _ _ l y Hm). cbn. by rewrite decide_True. }
      apply elem_of_Permutation in Hg as [m Hm]. destruct (He l y x (m ++ holds_of_others i (cf_threads (conf_of (fl_life f1))))) as [-> ->]; [|done].
      rewrite HP at 1. rewrite Hm. done.
    + destruct (excl_app _ _ l y x He Hin) as [-> ->]; [|done]. by eapply in_others.
Qed.
(** What is behind a forgotten guard stays as it is for ever, whatever the
    threads and the exclusive calls do (but if the resource is registered
    anew). *)
Lemma fact_frozen bs b f f' l y : Forall no_twice (bs ++ [b]) -> flived bs fborn = Some f -> fact b f = Some f' -> (l, y) ∈ fl_lost f ->
  there l (lf_world (fl_life f)) -> ~ renews b l -> part_eq l (lf_world (fl_life f)) (lf_world (fl_life f')).
Proof.
  intros N H E Hl Ht Hr. apply Forall_app in N as [N Nb0]. assert (no_twice b) as Nb by (rewrite Forall_forall in Nb0; apply Nb0; left). clear Nb0. pose proof (C57_lives bs f N H) as L. destruct (life_cinv _ _ L) as [w0 HI].
  assert (forall i s', act1 (Move i) (fl_life f) = Some s' -> part_eq l (lf_world (fl_life f)) (lf_world s')) as HM.
  { intros i s' Ea. apply move_conf in Ea. destruct (cf_threads (conf_of (fl_life f)) !! i) as [th|] eqn:Hi; [|unfold cstep in Ea; by rewrite Hi in Ea].
    apply (step_frame _ _ _ i _ _ th HI Hi Ea). intros Hg. by destruct (lost_apart bs f N H i l true y (ex_intro _ th (conj Hi Hg)) Hl). }
  pose proof (fact_plain b f f' Nb E) as Ea. destruct b as [[cl|i|o]|i]; cbn [plain] in Ea; try (by eapply HM).
  - cbn [act1] in Ea. injection Ea as <-. apply part_refl.
  - clear Ea. cbn [fact] in E. destruct (forallb over _); [|done].
    destruct (alone_among (fl_lost f) (p_excl o) [] (lf_world (fl_life f))) as [[r w'] h] eqn:Er.
    assert (lf_world (fl_life f') = w') as -> by (destruct r; try done; by injection E as <-).
    eapply among_frame; [exact Hl|apply not_elem_of_nil|by apply safe_excl|exact Er].
Qed.
Theorem C57_frozen_life bs0 bs f f' l y : Forall no_twice (bs0 ++ bs) -> flived bs0 fborn = Some f -> flived bs f = Some f' -> (l, y) ∈ fl_lost f ->
  there l (lf_world (fl_life f)) -> (forall b, b ∈ bs -> ~ renews b l) -> part_eq l (lf_world (fl_life f)) (lf_world (fl_life f')).
Proof.
  revert bs0 f. induction bs as [|b bs IH]; intros bs0 f N H0 H Hl Ht Hr; cbn [flived] in H; [injection H as <-; apply part_refl|].
  destruct (fact b f) as [f1|] eqn:E; [|done].
  assert (part_eq l (lf_world (fl_life f)) (lf_world (fl_life f1))) as K.
  { eapply (fact_frozen bs0); try done; [|by apply Hr; left]. rewrite cons_middle, app_assoc in N. by apply Forall_app in N as [N _]. }
  eapply part_trans; [exact K|]. apply (IH (bs0 ++ [b]) f1); [by rewrite <- app_assoc|rewrite flived_app, H0; cbn; by rewrite E|done| |by eapply part_there|].
  - destruct (fact_lost b f f1 l y E Hl) as [?|Hn]; [done|]. by destruct (Hr b (elem_of_list_here _ _)).
  - intros b' Hb. apply Hr. by right.
Qed.
End forget.

(** A case: a thread forgets a read guard of storage 1; then the world is used
    exclusively: component 1 can be read and component 2 changed, a change of
    component 1 never returns, not even in a batch; a new thread can read too. *)
Definition bs57 : list (faction nat) :=
  map FAct [Do (Register 1); Do (Register 2); Do CreateEntity; Do (Attach 1 1 5); Do (Attach 2 1 6);
            Enter (GetStore 1 false (fun _ => Done)); Move 0; Move 0] ++ [Forget 0].
Definition able (f : flife nat) (bs : list (faction nat)) : bool := match flived bs f with Some _ => true | None => false end.
Example C57_case_life : exists f, flived bs57 fborn = Some f /\ Forall no_twice bs57 /\
  bool_decide (fl_lost f = [(LStore 1, false)]) = true /\
  tells (lf_world (fl_life f)) (ReadComp 1 1) = Ret (OVal (Some 5)) /\
  able f [FAct (Do (ReadComp 1 1))] = true /\ able f [FAct (Do (WriteComp 2 1 9)); FAct (Do (MakeGroup KNon 1 2))] = true /\
  able f [FAct (Do (WriteComp 1 1 9))] = false /\ able f [FAct (Do (BatchAttach 2 3 1 [7]))] = false /\ able f [FAct (Do (MakeGroup KFull 1 2))] = false /\
  able f ([FAct (Enter (Call (WriteComp 1 1 8) (fun _ => Done)))] ++ replicate 4 (FAct (Move 1))) = false /\
  able f ([FAct (Enter (Call (ReadComp 1 1) (fun _ => Done)))] ++ replicate 4 (FAct (Move 1))) = true.
Proof.
  eexists. split; [vm_compute; reflexivity|]. split; [repeat (apply List.Forall_cons; [exact I|]); apply List.Forall_nil|].
  repeat (split; [vm_compute; reflexivity|]). vm_compute. reflexivity.
Qed.

(** Storages 1 and 2 in an owning group, 3 on its own; a read guard of storage
    2 is forgotten: nothing can be attached to 1 (the group would move it in 2)
    or to 2, but to 3; read guards can be had of all. *)
Definition bs57g : list (faction nat) :=
  map FAct [Do (Register 1); Do (Register 2); Do (Register 3); Do (MakeGroup KFull 1 2); Do CreateEntity;
            Enter (GetStore 2 false (fun _ => Done)); Move 0; Move 0] ++ [Forget 0].
Example C57_case_needs : exists f, flived bs57g fborn = Some f /\ Forall no_twice bs57g /\
  bool_decide (fl_lost f = [(LStore 2, false)]) = true /\
  able f [FAct (Do (Attach 3 1 9))] = true /\ able f [FAct (Do (Attach 1 1 9))] = false /\ able f [FAct (Do (Attach 2 1 9))] = false /\
  able f [FAct (Do (Query (QGroup KFull false false 1 2)))] = true /\ able f [FAct (Do (Query (QGroup KFull false true 1 2)))] = false /\
  able f [FAct (Do (MakeGroup KNon 2 3))] = true /\ able f [FAct (Do (MakeGroup KPart 3 2))] = true.
Proof.
  eexists. split; [vm_compute; reflexivity|]. split; [repeat (apply List.Forall_cons; [exact I|]); apply List.Forall_nil|].
  repeat (split; [vm_compute; reflexivity|]). vm_compute. reflexivity.
Qed.

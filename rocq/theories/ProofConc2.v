(** Queries stay within their locks; the pieces of work of the calls. *)
From stdpp Require Import prelude list gmap.
From Verif Require Import Base Api ModelSparse ModelEntity ModelGroup ModelWorld ModelQuery ModelStep ModelConc SpecConc
  Spec History ProofSparse ProofWorld ProofWf ProofConc.

(** ** Group methods keep the group's types *)
Section keeps.
Context {V : Type}.
Definition keeps {D A} (ty : D -> tid * tid) (m : M (gctx V D) A) : Prop :=
  forall c, ty (gc_d (m c).2) = ty (gc_d c).
Lemma keeps_bind {D A B} (ty : D -> tid * tid) (m : M (gctx V D) A) (k : A -> M (gctx V D) B) :
  keeps ty m -> (forall a, keeps ty (k a)) -> keeps ty (bind m k).
Proof.
  intros Hm Hk c. unfold bind. specialize (Hm c). destruct (m c) as [[a| | |] c']; simpl in *; try done.
  etrans; [apply Hk|done].
Qed.
Lemma keeps_ret {D A} (ty : D -> tid * tid) (a : A) : keeps ty (ret a).
Proof. by intros c. Qed.
Lemma keeps_get {D} (ty : D -> tid * tid) : keeps ty get.
Proof. by intros c. Qed.
Lemma keeps_lift {D A} (ty : D -> tid * tid) (o : outcome A) : keeps ty (lift o).
Proof. by intros c. Qed.
Lemma keeps_assert {D} (ty : D -> tid * tid) b : keeps ty (assert b).
Proof. by destruct b; intros c. Qed.
Lemma keeps_unwrap {D A} (ty : D -> tid * tid) (o : option A) : keeps ty (unwrap o).
Proof. by destruct o; intros c. Qed.
Lemma keeps_on_a {D A} (ty : D -> tid * tid) (m : M (sset V) A) : keeps ty (on_a m).
Proof. intros c. unfold on_a. by destruct (m (gc_a c)). Qed.
Lemma keeps_on_b {D A} (ty : D -> tid * tid) (m : M (sset V) A) : keeps ty (on_b m).
Proof. intros c. unfold on_b. by destruct (m (gc_b c)). Qed.
Lemma keeps_full_len n : keeps fty (on_d (full_set_len n)).
Proof. by intros c. Qed.
Lemma keeps_part_len n : keeps pty (on_d (part_set_len n)).
Proof. by intros c. Qed.
Lemma keeps_nd {A} (m : M (sset (nat * nat)) A) : keeps nty (on_d (on_nd m)).
Proof. intros c. unfold on_d, on_nd. by destruct (m (nd_set (gc_d c))). Qed.
Ltac kp := repeat first
  [ progress intros
  | match goal with
    | |- keeps _ (ret _) => apply keeps_ret
    | |- keeps _ get => apply keeps_get
    | |- keeps _ (lift _) => apply keeps_lift
    | |- keeps _ (assert _) => apply keeps_assert
    | |- keeps _ (unwrap _) => apply keeps_unwrap
    | |- keeps _ (on_a _) => apply keeps_on_a
    | |- keeps _ (on_b _) => apply keeps_on_b
    | |- keeps _ (on_d (full_set_len _)) => apply keeps_full_len
    | |- keeps _ (on_d (part_set_len _)) => apply keeps_part_len
    | |- keeps _ (on_d (on_nd _)) => apply keeps_nd
    | |- keeps _ (bind _ _) => apply keeps_bind
    | |- keeps _ (if ?b then _ else _) => destruct b
    end ].
Lemma keeps_full_add id : same_types_d fty (@full_add V id).
Proof. change (keeps fty (@full_add V id)). unfold full_add. kp. Qed.
Lemma keeps_full_remove id : same_types_d fty (@full_remove V id).
Proof. change (keeps fty (@full_remove V id)). unfold full_remove. kp. Qed.
Lemma keeps_part_add id : same_types_d pty (@part_add V id).
Proof. change (keeps pty (@part_add V id)). unfold part_add. kp. Qed.
Lemma keeps_part_remove id : same_types_d pty (@part_remove V id).
Proof. change (keeps pty (@part_remove V id)). unfold part_remove. kp. Qed.
Lemma keeps_non_add id : same_types_d nty (@non_add V id).
Proof. change (keeps nty (@non_add V id)). unfold non_add. kp. Qed.
Lemma keeps_non_remove id : same_types_d nty (@non_remove V id).
Proof. change (keeps nty (@non_remove V id)). unfold non_remove. kp. Qed.
Lemma keeps_full_kill id : same_types_d fty (@full_remove V id >>! on_a (cs_remove id) >>! on_b (cs_remove id)).
Proof. change (keeps fty (@full_remove V id >>! on_a (cs_remove id) >>! on_b (cs_remove id))). kp. apply keeps_full_remove. Qed.
Lemma keeps_part_kill id : same_types_d pty (@part_remove V id >>! on_a (cs_remove id)).
Proof. change (keeps pty (@part_remove V id >>! on_a (cs_remove id))). kp. apply keeps_part_remove. Qed.
End keeps.

(** ** Iterators stay within their locks *)
Section local.
Context {V : Type}.
Implicit Types (w : world V) (h : list (lock * bool)).

Definition meq {S A} (m m' : M S A) : Prop := forall s, m s = m' s.
Lemma meq_refl {S A} (m : M S A) : meq m m.
Proof. by intros s. Qed.
Lemma meq_bind {S A B} (m m' : M S A) (k k' : A -> M S B) : meq m m' -> (forall a, meq (k a) (k' a)) -> meq (bind m k) (bind m' k').
Proof. intros H Hk s. unfold bind. rewrite (H s). destruct (m' s) as [[a| | |] s']; [apply Hk|done..]. Qed.
Lemma meq_while {S X R} n n' (m m' : M S (option X)) (b b' : X -> M S (option R)) : n = n' -> meq m m' ->
  (forall x, meq (b x) (b' x)) -> meq (while_some n m b) (while_some n' m' b').
Proof.
  intros <- H Hb. induction n as [|n IH]; [apply meq_refl|]. cbn [while_some]. apply meq_bind; [done|].
  intros [x|]; [|apply meq_refl]. apply meq_bind; [done|]. intros [y|]; [apply meq_refl|done].
Qed.
Lemma meq_fst {S T A} (m m' : M S A) : meq m m' -> meq (@on_fst S T A m) (on_fst m').
Proof. intros H [s t]. unfold on_fst. by rewrite (H _). Qed.
Lemma meq_snd {S T A} (m m' : M T A) : meq m m' -> meq (@on_snd S T A m) (on_snd m').
Proof. intros H [s t]. unfold on_snd. by rewrite (H _). Qed.

(** the references of an item are within the locks, mutable ones within write
    locks *)
Definition item_own (hs : list (lock * bool)) (it : item) : Prop :=
  forall m t i, (m, t, i) ∈ item_refs it -> exists x, (LStore t, x) ∈ hs /\ (m = true -> x = true).
Definition yields {S X} (P : X -> Prop) (m : M S (option X)) : Prop :=
  forall s, match (m s).1 with Ret (Some x) => P x | _ => True end.
Record qlocal (hs : list (lock * bool)) (J : qiter V) : Prop := {
  ql_next : forall w w', agree hs w w' -> meq (qi_next J w) (qi_next J w');
  ql_next_id : forall w w', agree hs w w' -> meq (qi_next_id J w) (qi_next_id J w');
  ql_from : forall w w' id, agree hs w w' -> meq (qi_from_id J w id) (qi_from_id J w' id);
  ql_hint : forall w w' st, agree hs w w' -> qi_hint J w st = qi_hint J w' st;
  ql_fuel : forall w w' st, agree hs w w' -> qi_fuel J w st = qi_fuel J w' st;
  qy_next : forall w, yields (item_own hs) (qi_next J w);
  qy_next_id : forall w, yields (fun x => item_own hs x.2) (qi_next_id J w);
  qy_from : forall w id, yields (item_own hs) (qi_from_id J w id)
}.
Lemma own_sub hs hs' it : (forall y, y ∈ hs -> y ∈ hs') -> item_own hs it -> item_own hs' it.
Proof. intros Hs H m t i Hin. destruct (H m t i Hin) as (x & ? & ?). eauto. Qed.
Lemma yields_impl {S X} (P Q : X -> Prop) (m : M S (option X)) : (forall x, P x -> Q x) -> yields P m -> yields Q m.
Proof. intros HP H s. specialize (H s). destruct ((m s).1) as [[x|]| | |]; auto. Qed.
Lemma qlocal_sub hs hs' J : (forall y, y ∈ hs -> y ∈ hs') -> qlocal hs J -> qlocal hs' J.
Proof.
  intros Hs [A1 A2 A3 A4 A5 B1 B2 B3]. split; intros.
  - apply A1. by eapply agree_sub.
  - apply A2. by eapply agree_sub.
  - apply A3. by eapply agree_sub.
  - apply A4. by eapply agree_sub.
  - apply A5. by eapply agree_sub.
  - eapply yields_impl; [|apply B1]. intros x. by apply own_sub.
  - eapply yields_impl; [|apply B2]. intros x. by apply own_sub.
  - eapply yields_impl; [|apply B3]. intros x. by apply own_sub.
Qed.

Lemma own_ref hs m t i : (LStore t, m) ∈ hs -> item_own hs (IRef m t i).
Proof. intros H m' t' i' Hin. apply elem_of_list_singleton in Hin as [= -> -> ->]. eauto. Qed.
Lemma own_2 hs a b : item_own hs a -> item_own hs b -> item_own hs (I2 a b).
Proof. intros Ha Hb m t i Hin. cbn [item_refs] in Hin. rewrite elem_of_app in Hin. destruct Hin; eauto. Qed.
Lemma own_3 hs a b c : item_own hs a -> item_own hs b -> item_own hs c -> item_own hs (I3 a b c).
Proof. intros Ha Hb Hc m t i Hin. cbn [item_refs] in Hin. rewrite !elem_of_app in Hin. destruct Hin as [|[|]]; eauto. Qed.
Lemma own_4 hs a b c d : item_own hs a -> item_own hs b -> item_own hs c -> item_own hs d -> item_own hs (I4 a b c d).
Proof. intros Ha Hb Hc Hd m t i Hin. cbn [item_refs] in Hin. rewrite !elem_of_app in Hin. destruct Hin as [|[|[|]]]; eauto. Qed.
Lemma own_5 hs a b c d e : item_own hs a -> item_own hs b -> item_own hs c -> item_own hs d -> item_own hs e -> item_own hs (I5 a b c d e).
Proof. intros Ha Hb Hc Hd He m t i Hin. cbn [item_refs] in Hin. rewrite !elem_of_app in Hin. destruct Hin as [|[|[|[|]]]]; eauto. Qed.

Lemma ptr_eq {S} hs w w' t x : (LStore t, x) ∈ hs -> agree hs w w' -> meq (S := S) (ptr w t) (ptr w' t).
Proof. intros Hin [_ Ha]. specialize (Ha _ _ Hin). simpl in Ha. intros s. unfold ptr. by rewrite Ha. Qed.
Lemma count_eq hs w w' t x : (LStore t, x) ∈ hs -> agree hs w w' -> st_count w t = st_count w' t.
Proof. intros Hin [_ Ha]. specialize (Ha _ _ Hin). simpl in Ha. unfold st_count. by rewrite Ha. Qed.
Lemma gptr_eq {S} hs w w' i x : (LGroup i, x) ∈ hs -> agree hs w w' -> meq (S := S) (gptr w i) (gptr w' i).
Proof. intros Hin [_ Ha]. specialize (Ha _ _ Hin). simpl in Ha. intros s. unfold gptr. by rewrite Ha. Qed.
Lemma gcount_eq hs w w' i x : (LGroup i, x) ∈ hs -> agree hs w w' -> gcount w i = gcount w' i.
Proof. intros Hin [_ Ha]. specialize (Ha _ _ Hin). simpl in Ha. unfold gcount. by rewrite Ha. Qed.

Lemma y_ret_some {S X} (P : X -> Prop) x : P x -> yields (S := S) P (ret (Some x)).
Proof. by intros ? ?. Qed.
Lemma y_ret_none {S X} (P : X -> Prop) : yields (S := S) P (ret None).
Proof. by intros ?. Qed.
Lemma y_ub {S X} (P : X -> Prop) : yields (S := S) P ub.
Proof. by intros ?. Qed.
Lemma y_bind {S X Y} (P : X -> Prop) (Q : Y -> Prop) (m : M S (option X)) (k : option X -> M S (option Y)) :
  yields P m -> (forall x, P x -> yields Q (k (Some x))) -> yields Q (k None) -> yields Q (bind m k).
Proof.
  intros Hm Hk Hn s. unfold bind. specialize (Hm s). destruct (m s) as [[[x|]| | |] s']; simpl in *; try done.
  all: first [by apply Hk | by apply Hn].
Qed.
Lemma y_bind' {S A Y} (Q : Y -> Prop) (m : M S A) (k : A -> M S (option Y)) :
  (forall x, yields Q (k x)) -> yields Q (bind m k).
Proof. intros Hk s. unfold bind. destruct (m s) as [[x| | |] s']; simpl in *; try done. apply Hk. Qed.
Lemma y_fst {S T X} (P : X -> Prop) (m : M S (option X)) : yields P m -> yields P (@on_fst S T _ m).
Proof. intros H [s t]. unfold on_fst. specialize (H s). simpl in *. by destruct (m s). Qed.
Lemma y_snd {S T X} (P : X -> Prop) (m : M T (option X)) : yields P m -> yields P (@on_snd S T _ m).
Proof. intros H [s t]. unfold on_snd. specialize (H t). simpl in *. by destruct (m t). Qed.
Lemma y_while {S X R} (P : X -> Prop) (Q : R -> Prop) fuel (next : M S (option X)) body :
  yields P next -> (forall x, P x -> yields Q (body x)) -> yields Q (while_some fuel next body).
Proof.
  intros Hn Hb. induction fuel as [|fuel IH]; [by intros s|]. cbn [while_some].
  apply (y_bind P); [done| |apply y_ret_none].
  intros x Hx. apply (y_bind Q); [by apply Hb| |done]. intros r Hr. by apply y_ret_some.
Qed.

Lemma local_ref m t : qlocal [(LStore t, m)] (iter_ref m t).
Proof.
  assert ((LStore t, m) ∈ [(LStore t, m)]) as Hin by left.
  split; simpl.
  - intros w w' Ha. apply meq_bind; [apply meq_refl|]. intros n. apply meq_bind; [by eapply ptr_eq|]. intros s. apply meq_refl.
  - intros w w' Ha. apply meq_bind; [apply meq_refl|]. intros n. apply meq_bind; [by eapply ptr_eq|]. intros s. apply meq_refl.
  - intros w w' id Ha. apply meq_bind; [by eapply ptr_eq|]. intros s. apply meq_refl.
  - intros w w' st Ha. by rewrite (count_eq _ _ _ _ _ Hin Ha).
  - intros w w' st Ha. by rewrite (count_eq _ _ _ _ _ Hin Ha).
  - intros w. apply y_bind'. intros n. apply y_bind'. intros s. destruct (_ <? _); [|apply y_ret_none].
    apply y_bind'. intros i. apply y_bind'. intros _. by apply y_ret_some, own_ref.
  - intros w. apply y_bind'. intros n. apply y_bind'. intros s. destruct (_ <? _); [|apply y_ret_none].
    apply y_bind'. intros i. apply y_bind'. intros j. apply y_bind'. intros _. by apply y_ret_some, own_ref.
  - intros w id. apply y_bind'. intros s. apply y_bind'. intros [i|]; [by apply y_ret_some, own_ref|apply y_ret_none].
Qed.
Ltac grp Ha Hb Hg := split; cbn [qi_next qi_next_id qi_from_id qi_hint qi_fuel iter_full iter_part iter_non qi_st];
  [ intros w w' Hag | intros w w' Hag | intros w w' id Hag | intros w w' st Hag | intros w w' st Hag | intros w | intros w | intros w id ];
  repeat match goal with
  | |- meq ?m ?m => apply meq_refl
  | H : agree _ _ _ |- meq (ptr _ ?t) (ptr _ ?t) => first [exact (ptr_eq _ _ _ _ _ Ha H) | exact (ptr_eq _ _ _ _ _ Hb H)]
  | H : agree _ _ _ |- meq (gptr _ _) (gptr _ _) => exact (gptr_eq _ _ _ _ _ Hg H)
  | |- meq (bind _ _) (bind _ _) => apply meq_bind; [|intros ?]
  | |- meq (if ?b then _ else _) _ => destruct b
  | |- meq (match ?b with _ => _ end) _ => destruct b
  | |- yields _ (ret None) => apply y_ret_none
  | |- yields _ ub => apply y_ub
  | |- yields _ (ret (Some _)) => apply y_ret_some; apply own_2; apply own_ref; assumption
  | |- yields _ (bind _ _) => apply y_bind'; intros ?
  | |- yields _ (if ?b then _ else _) => destruct b
  | |- yields _ (match ?b with _ => _ end) => destruct b
  end; try reflexivity.
Lemma local_full ma mb a b n g : qlocal [(LGroup g, false); (LStore b, mb); (LStore a, ma)] (iter_full ma mb a b n).
Proof.
  assert ((LStore a, ma) ∈ [(LGroup g, false); (LStore b, mb); (LStore a, ma)]) as Ha by (right; right; left).
  assert ((LStore b, mb) ∈ [(LGroup g, false); (LStore b, mb); (LStore a, ma)]) as Hb by (right; left).
  grp Ha Hb Hb.
Qed.
Lemma local_part ma mb a b n g : qlocal [(LGroup g, false); (LStore b, mb); (LStore a, ma)] (iter_part ma mb a b n).
Proof.
  assert ((LStore a, ma) ∈ [(LGroup g, false); (LStore b, mb); (LStore a, ma)]) as Ha by (right; right; left).
  assert ((LStore b, mb) ∈ [(LGroup g, false); (LStore b, mb); (LStore a, ma)]) as Hb by (right; left).
  grp Ha Hb Hb.
Qed.
Lemma local_non ma mb a b g : qlocal [(LGroup g, false); (LStore b, mb); (LStore a, ma)] (iter_non ma mb a b g).
Proof.
  assert ((LStore a, ma) ∈ [(LGroup g, false); (LStore b, mb); (LStore a, ma)]) as Ha by (right; right; left).
  assert ((LStore b, mb) ∈ [(LGroup g, false); (LStore b, mb); (LStore a, ma)]) as Hb by (right; left).
  assert ((LGroup g, false) ∈ [(LGroup g, false); (LStore b, mb); (LStore a, ma)]) as Hg by left.
  grp Ha Hb Hg.
  all: match goal with H : agree _ _ _ |- _ => by rewrite (gcount_eq _ _ _ _ _ Hg H) end.
Qed.
Ltac lc := repeat first
  [ progress intros
  | match goal with
    | |- meq ?m ?m => apply meq_refl
    | H : qlocal ?hs ?J, Hag : agree ?hs ?w ?w' |- meq (qi_next_id ?J ?w) (qi_next_id ?J ?w') => exact (ql_next_id _ _ H _ _ Hag)
    | H : qlocal ?hs ?J, Hag : agree ?hs ?w ?w' |- meq (qi_from_id ?J ?w ?id) (qi_from_id ?J ?w' ?id) => exact (ql_from _ _ H _ _ _ Hag)
    | H : qlocal ?hs ?J, Hag : agree ?hs ?w ?w' |- qi_fuel ?J ?w ?s = qi_fuel ?J ?w' ?s => exact (ql_fuel _ _ H _ _ _ Hag)
    | H : qlocal ?hs ?J, Hag : agree ?hs ?w ?w' |- S (qi_fuel ?J ?w ?s) = S (qi_fuel ?J ?w' ?s) => f_equal; exact (ql_fuel _ _ H _ _ _ Hag)
    | |- meq (on_fst _) (on_fst _) => apply meq_fst
    | |- meq (on_snd _) (on_snd _) => apply meq_snd
    | |- meq (while_some _ _ _) (while_some _ _ _) => apply meq_while
    | |- meq (bind _ _) (bind _ _) => apply meq_bind
    | x : _ * item |- _ => destruct x
    | |- meq (match ?b with _ => _ end) _ => destruct b
    | |- yields _ (ret None) => apply y_ret_none
    | |- yields _ (ret (Some _)) => apply y_ret_some; cbn [snd] in *; first [assumption | apply own_2; assumption | apply own_3; assumption | apply own_4; assumption | apply own_5; assumption]
    | |- yields _ (on_fst _) => apply y_fst
    | |- yields _ (on_snd _) => apply y_snd
    | |- yields _ (bind get _) => apply y_bind'
    | H : qlocal ?hs ?J |- yields _ (qi_next_id ?J ?w) => apply (qy_next_id _ _ H)
    | H : qlocal ?hs ?J |- yields _ (qi_from_id ?J ?w ?id) => apply (qy_from _ _ H)
    | |- yields (item_own ?hs) (bind _ _) => apply (y_bind (item_own hs))
    | |- yields (fun x => item_own ?hs x.2) (bind _ _) => apply (y_bind (item_own hs))
    | |- yields (item_own ?hs) (while_some _ _ _) => apply (y_while (fun x => item_own hs x.2))
    | |- yields (fun x => item_own ?hs x.2) (while_some _ _ _) => apply (y_while (fun x => item_own hs x.2))
    end ].
Ltac lcs := split; cbn [qi_next qi_next_id qi_from_id qi_hint qi_fuel with2 with3 with4 with5 without_left without_right]; lc; try reflexivity.
Lemma local_with2 hs A B : qlocal hs A -> qlocal hs B -> qlocal hs (with2 A B).
Proof. intros. lcs. Qed.
Lemma local_with3 hs A B C : qlocal hs A -> qlocal hs B -> qlocal hs C -> qlocal hs (with3 A B C).
Proof. intros. lcs. Qed.
Lemma local_with4 hs A B C D : qlocal hs A -> qlocal hs B -> qlocal hs C -> qlocal hs D -> qlocal hs (with4 A B C D).
Proof. intros. lcs. Qed.
Lemma local_with5 hs A B C D E : qlocal hs A -> qlocal hs B -> qlocal hs C -> qlocal hs D -> qlocal hs E -> qlocal hs (with5 A B C D E).
Proof. intros. lcs. Qed.
Lemma local_left hs A B : qlocal hs A -> qlocal hs B -> qlocal hs (without_left A B).
Proof. intros. lcs. Qed.
Lemma local_right hs A B : qlocal hs A -> qlocal hs B -> qlocal hs (without_right A B).
Proof. intros. lcs. Qed.
End local.

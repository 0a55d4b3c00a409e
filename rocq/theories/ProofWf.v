(** Storages stay well formed and plain queries safe in every history whose
    batch attaches are on entities lacking the type, also when calls panic.
    No other rule of use is assumed. *)
From stdpp Require Import prelude list gmap.
From Verif Require Import Base Api ModelSparse ModelEntity ModelGroup ModelWorld ModelQuery ModelStep
  Spec History ProofSparse ProofWorld ProofHistory.

Section wf.
Context {V : Type}.
Implicit Types (w : world V).

(** [m] never is undefined behaviour from a state satisfying [I] and leaves a
    state satisfying [I], also when it panics; a result satisfies [Q]. *)
Definition safe {S A} (I : S -> Prop) (m : M S A) (Q : A -> S -> Prop) : Prop :=
  forall s, I s -> I (m s).2 /\ match (m s).1 with Ret a => Q a (m s).2 | UB => False | _ => True end.
Lemma safe_bind {S A B} (I : S -> Prop) (m : M S A) (k : A -> M S B) (P : A -> S -> Prop) Q :
  safe I m P -> (forall a, safe (fun s => I s) (fun s => k a s) (fun b s => Q b s) \/ (forall s, I s -> P a s -> I (k a s).2 /\ match (k a s).1 with Ret b => Q b (k a s).2 | UB => False | _ => True end)) ->
  safe I (bind m k) Q.
Proof.
  intros Hm Hk s Hs. unfold bind. destruct (Hm s Hs) as [H1 H2]. destruct (m s) as [[a| | |] s']; simpl in *; try done.
  destruct (Hk a) as [H|H]; by apply H.
Qed.
(** the common case: no postcondition *)
Definition ok {S A} (I : S -> Prop) (m : M S A) : Prop := safe I m (fun _ _ => True).
Lemma ok_bind {S A B} (I : S -> Prop) (m : M S A) (k : A -> M S B) :
  ok I m -> (forall a, ok I (k a)) -> ok I (bind m k).
Proof. intros Hm Hk. eapply safe_bind; [exact Hm|]. intros a. left. apply Hk. Qed.
Lemma ok_get_bind {S B} (I : S -> Prop) (k : S -> M S B) :
  (forall s, I s -> I (k s s).2 /\ match (k s s).1 with UB => False | _ => True end) -> ok I (bind get k).
Proof. intros Hk s Hs. unfold bind, get. destruct (Hk s Hs) as [H1 H2]. split; [done|]. by destruct ((k s s).1). Qed.
Lemma ok_ret {S A} (I : S -> Prop) (a : A) : ok I (ret a).
Proof. by intros s Hs. Qed.
Lemma ok_get {S} (I : S -> Prop) : ok I get.
Proof. by intros s Hs. Qed.
Lemma ok_panic {S A} (I : S -> Prop) : ok I (@panic S A).
Proof. by intros s Hs. Qed.
Lemma ok_assert {S} (I : S -> Prop) b : ok I (assert b).
Proof. by destruct b. Qed.
Lemma ok_unwrap {S A} (I : S -> Prop) (x : option A) : ok I (unwrap x).
Proof. by destruct x. Qed.
Lemma ok_lift {S A} (I : S -> Prop) (o : outcome A) : o <> UB -> ok I (lift o).
Proof. intros Ho s Hs. split; [done|]. by destruct o. Qed.
Lemma ok_for_each {S A} (I : S -> Prop) (l : list A) f : (forall x, ok I (f x)) -> ok I (for_each l f).
Proof. intros H. induction l; [apply ok_ret|]. apply ok_bind; [apply H|done]. Qed.
Lemma ok_for_range {S} (I : S -> Prop) a n f : (forall x, ok I (f x)) -> ok I (for_range a n f).
Proof. intros H. revert a. induction n; intros a; [apply ok_ret|]. apply ok_bind; [apply H|done]. Qed.
Lemma ok_fmapM {S A B} (I : S -> Prop) (f : A -> B) (m : M S A) : ok I m -> ok I (fmapM f m).
Proof. intros H. apply ok_bind; [done|]. intros a. apply ok_ret. Qed.

(** ** Sparse sets *)
Section sets.
Context {U : Type}.
Lemma ok_add e (v : U) : ok ss_wf (ss_add e v).
Proof. intros s W. destruct (add_spec e v s W) as (s' & E & W' & _). by rewrite E. Qed.
Lemma ok_remove e : ok (@ss_wf U) (ss_remove e).
Proof.
  intros s W. destruct (ss_get_index s e) as [i|] eqn:E.
  - destruct (remove_spec e i s W E) as (v & s' & Er & _ & W' & _). by rewrite Er.
  - destruct (decide (e = length (indices s))) as [He|He].
    + by rewrite (remove_spec_Panic e s He).
    + by rewrite (remove_spec_None e s E He).
Qed.
Lemma ok_swap i j : ok (@ss_wf U) (ss_swap_by_index i j).
Proof.
  intros s W. destruct (decide (i < length (entities s) /\ j < length (entities s))) as [[Hi Hj]|Hn].
  - destruct (swap_by_index_spec i j s W Hi Hj) as (s' & E & W' & _). by rewrite E.
  - unfold ss_swap_by_index, bind, get, ss_len. destruct (i =? j); [done|].
    destruct (length (entities s) <=? i) eqn:E1; [done|]. destruct (length (entities s) <=? j) eqn:E2; [done|].
    apply Nat.leb_gt in E1, E2. lia.
Qed.
Lemma ok_cs_remove e : ok (@ss_wf U) (cs_remove e).
Proof. unfold cs_remove. apply ok_bind; [apply ok_remove|]. intros r. apply ok_bind; [apply ok_unwrap|]. intros _. apply ok_ret. Qed.
Lemma ok_clear : ok (@ss_wf U) (let! s := get in put (ss_clear s)).
Proof. intros s W. split; [apply wf_new|done]. Qed.
Lemma ok_poke i (v : U) : ok ss_wf (let! s := get in put (ss_poke i v s)).
Proof. intros s W. split; [by apply poke_wf|done]. Qed.
Lemma get_unchecked_ok (s : sset U) e : ss_wf s -> ss_exist s e = true -> exists i v, ss_get_unchecked_loc s e = Ret i /\ sdata s !! i = Some v.
Proof.
  intros W He. apply exist_pos in He as [i Hi]. exists i. pose proof Hi as Hi'. apply (wf_pos s W) in Hi'.
  apply lookup_lt_Some in Hi'. rewrite (wf_len s W) in Hi'. apply lookup_lt_is_Some in Hi' as [v Hv].
  exists v. split; [by apply get_unchecked_wf|done].
Qed.
End sets.

(** ** Groups *)
Definition gI {D} (P : D -> Prop) (c : gctx V D) : Prop := P (gc_d c) /\ ss_wf (gc_a c) /\ ss_wf (gc_b c).
Lemma ok_on_a {D A} (P : D -> Prop) (m : M (sset V) A) : ok ss_wf m -> ok (gI P) (on_a m).
Proof.
  intros H c (H1 & H2 & H3). unfold on_a. specialize (H _ H2). destruct (m (gc_a c)) as [o a']. simpl in *.
  destruct H. split; [done|by destruct o].
Qed.
Lemma ok_on_b {D A} (P : D -> Prop) (m : M (sset V) A) : ok ss_wf m -> ok (gI P) (on_b m).
Proof.
  intros H c (H1 & H2 & H3). unfold on_b. specialize (H _ H3). destruct (m (gc_b c)) as [o a']. simpl in *.
  destruct H. split; [done|by destruct o].
Qed.
Lemma ok_on_d {D A} (P : D -> Prop) (m : M D A) : ok P m -> ok (gI P) (on_d m).
Proof.
  intros H c (H1 & H2 & H3). unfold on_d. specialize (H _ H1). destruct (m (gc_d c)) as [o a']. simpl in *.
  destruct H. split; [done|by destruct o].
Qed.
Definition ndP (d : non_data) : Prop := ss_wf (nd_set d).
Lemma ok_on_nd {A} (m : M (sset (nat * nat)) A) : ok ss_wf m -> ok ndP (on_nd m).
Proof.
  intros H d Hd. unfold on_nd. specialize (H _ Hd). destruct (m (nd_set d)) as [o a']. simpl in *.
  destruct H. split; [done|by destruct o].
Qed.
Lemma full_in_noub d (a b : sset V) id : full_in_group d a b id <> UB.
Proof. unfold full_in_group. destruct (negb _); [done|]. by destruct (ss_get_index a id), (ss_get_index b id). Qed.
Lemma part_in_noub d (a b : sset V) id : part_in_group d a b id <> UB.
Proof. unfold part_in_group. destruct (negb _); [done|]. by destruct (ss_get_index a id). Qed.
Lemma non_in_noub d (a b : sset V) id : non_in_group d a b id <> UB.
Proof. unfold non_in_group. by destruct (negb _). Qed.
Lemma in_noub g (a b : sset V) id : g_in_group g a b id <> UB.
Proof. destruct g; [apply full_in_noub|apply part_in_noub|apply non_in_noub]. Qed.

Ltac okg := repeat first
  [ progress intros
  | match goal with
    | |- ok _ (ret _) => apply ok_ret
    | |- ok _ get => apply ok_get
    | |- ok _ (assert _) => apply ok_assert
    | |- ok _ (unwrap _) => apply ok_unwrap
    | |- ok _ (bind _ _) => apply ok_bind
    | |- ok _ (on_a _) => apply ok_on_a
    | |- ok _ (on_b _) => apply ok_on_b
    | |- ok _ (on_d _) => apply ok_on_d
    | |- ok _ (on_nd _) => apply ok_on_nd
    | |- ok _ (ss_swap_by_index _ _) => apply ok_swap
    | |- ok _ (ss_add _ _) => apply ok_add
    | |- ok _ (ss_remove _) => apply ok_remove
    | |- ok _ (cs_remove _) => apply ok_cs_remove
    | |- ok _ (for_range _ _ _) => apply ok_for_range
    | |- ok _ (lift (full_in_group _ _ _ _)) => apply ok_lift, full_in_noub
    | |- ok _ (lift (part_in_group _ _ _ _)) => apply ok_lift, part_in_noub
    | |- ok _ (lift (non_in_group _ _ _ _)) => apply ok_lift, non_in_noub
    | |- ok _ (full_set_len _) => done
    | |- ok _ (part_set_len _) => done
    | |- ok _ (if ?b then _ else _) => destruct b
    | |- ok _ (match ?b with _ => _ end) => destruct b
    end ].
Lemma ok_full_add id : ok (gI (fun _ => True)) (full_add id).
Proof. unfold full_add. okg. Qed.
Lemma ok_full_remove id : ok (gI (fun _ => True)) (full_remove id).
Proof. unfold full_remove. okg. Qed.
Lemma ok_full_make : ok (gI (fun _ => True)) full_make.
Proof. unfold full_make. okg. Qed.
Lemma ok_part_add id : ok (gI (fun _ => True)) (part_add id).
Proof. unfold part_add. okg. Qed.
Lemma ok_part_remove id : ok (gI (fun _ => True)) (part_remove id).
Proof. unfold part_remove. okg. Qed.
Lemma ok_part_make : ok (gI (fun _ => True)) part_make.
Proof. unfold part_make. okg. Qed.
Lemma ok_non_add id : ok (gI ndP) (non_add id).
Proof. unfold non_add. okg. Qed.
Lemma ok_non_remove id : ok (gI ndP) (non_remove id).
Proof. unfold non_remove. okg. Qed.
Lemma ok_non_make : ok (gI ndP) non_make.
Proof. unfold non_make. apply ok_bind; [apply ok_on_d, ok_on_nd, ok_clear|]. okg. Qed.

(** ** Worlds *)
Record good w : Prop := {
  gd_st : forall t st, w_comps w !! t = Some st -> st_ty st = t /\ ss_wf (st_set st);
  gd_gr : forall i d, w_groups w !! i = Some (GNon d) -> ss_wf (nd_set d);
  gd_res : forall r x, w_res w !! r = Some x -> rv_ty x = r
}.
Lemma good_new : good w_new.
Proof. by split. Qed.
Lemma good_em e w : good w -> good (set_em e w).
Proof. intros [A B C]. by split. Qed.
Lemma good_comp w t st s : good w -> w_comps w !! t = Some st -> ss_wf s ->
  good (set_comps (<[t := St (st_ty st) s]> (w_comps w)) w).
Proof.
  intros [A B C] Hst Hs. split; [|done|done]. intros u st'. simpl. destruct (decide (u = t)) as [->|].
  - rewrite lookup_insert. intros [= <-]. cbn [st_ty st_set]. split; [by apply (A t st)|done].
  - rewrite lookup_insert_ne by done. apply A.
Qed.
Lemma good_group w i g : good w -> (forall d, g = GNon d -> ss_wf (nd_set d)) ->
  good (set_groups (<[i := g]> (w_groups w)) w).
Proof.
  intros [A B C] Hg. split; [done| |done]. intros j d. simpl. destruct (decide (i = j)) as [<-|].
  - destruct (decide (i < length (w_groups w))).
    + rewrite list_lookup_insert by done. intros H. apply Hg. congruence.
    + rewrite list_insert_ge by lia. apply B.
  - rewrite list_lookup_insert_ne by done. apply B.
Qed.

Lemma ok_on_em {A} (m : M em A) : (forall s, (m s).1 <> UB) -> ok good (on_em m).
Proof.
  intros H w G. unfold on_em. specialize (H (w_em w)). destruct (m (w_em w)) as [o e']. simpl in *.
  split; [by apply good_em|]. by destruct o.
Qed.
Lemma ok_storage_mut {A} t (m : M (sset V) A) : ok ss_wf m -> ok good (storage_mut t m).
Proof.
  intros H w G. unfold storage_mut. destruct (w_comps w !! t) as [st|] eqn:E; [|done].
  destruct (gd_st w G t st E) as [Hty Hw]. rewrite Hty, Nat.eqb_refl. specialize (H _ Hw).
  destruct (m (st_set st)) as [o s']. simpl in *. destruct H as [H1 H2]. split; [|done].
  rewrite <- Hty at 2. by apply good_comp.
Qed.
Lemma ok_dyn_mut {A} t (m : M (sset V) A) : ok ss_wf m -> ok good (dyn_mut t m).
Proof.
  intros H w G. unfold dyn_mut. destruct (w_comps w !! t) as [st|] eqn:E; [|done].
  destruct (gd_st w G t st E) as [Hty Hw]. specialize (H _ Hw).
  destruct (m (st_set st)) as [o s']. simpl in *. destruct H as [H1 H2]. split; [|done]. by apply good_comp.
Qed.
Lemma ok_run_group i ff fp fn : ok (gI (fun _ => True)) ff -> ok (gI (fun _ => True)) fp -> ok (gI ndP) fn ->
  ok good (run_group_at i ff fp fn).
Proof.
  intros Hf Hp Hn w G. unfold run_group_at. destruct (w_groups w !! i) as [[d|d|d]|] eqn:Hi; [..|done].
  - destruct (w_comps w !! fd_a d) as [sa|] eqn:Ha; [|done].
    destruct (fd_a d =? fd_b d) eqn:Hab; [done|]. apply Nat.eqb_neq in Hab.
    destruct (w_comps w !! fd_b d) as [sb|] eqn:Hb; [|done].
    destruct (gd_st w G _ _ Ha) as [_ Wa], (gd_st w G _ _ Hb) as [_ Wb].
    specialize (Hf (GC d (st_set sa) (st_set sb))). destruct (ff _) as [o c]. simpl in *. destruct Hf as [(_ & F1 & F2) F3]; [done|].
    split; [|done]. apply (good_group (set_comps _ w)); [|done].
    pose proof (good_comp w _ _ _ G Ha F1) as G1.
    assert (w_comps (set_comps (<[fd_a d:=St (st_ty sa) (gc_a c)]> (w_comps w)) w) !! fd_b d = Some sb) as Hb1
      by (simpl; by rewrite lookup_insert_ne).
    exact (good_comp _ _ _ _ G1 Hb1 F2).
  - destruct (w_comps w !! pd_a d) as [sa|] eqn:Ha; [|done].
    destruct (pd_a d =? pd_b d) eqn:Hab; [done|].
    destruct (w_comps w !! pd_b d) as [sb|] eqn:Hb; [|done].
    destruct (gd_st w G _ _ Ha) as [_ Wa], (gd_st w G _ _ Hb) as [_ Wb].
    specialize (Hp (GC d (st_set sa) (st_set sb))). destruct (fp _) as [o c]. simpl in *. destruct Hp as [(_ & F1 & F2) F3]; [done|].
    split; [|done]. apply (good_group (set_comps _ w)); [|done]. by apply good_comp.
  - destruct (w_comps w !! nd_a d) as [sa|] eqn:Ha; [|done].
    destruct (w_comps w !! nd_b d) as [sb|] eqn:Hb; [|done].
    destruct (gd_st w G _ _ Ha) as [_ Wa], (gd_st w G _ _ Hb) as [_ Wb].
    specialize (Hn (GC d (st_set sa) (st_set sb))). destruct (fn _) as [o c]. simpl in *.
    destruct Hn as [(F0 & F1 & F2) F3]; [split; [by apply (gd_gr w G i)|done]|].
    split; [|done]. apply good_group; [done|]. by intros ? [= <-].
Qed.
Lemma exist_noub id w : exist id w <> UB.
Proof. unfold exist, em_has. by destruct (flags (w_em w) !! id) as [[]|]. Qed.
Lemma collect_noub w id gs i : collect_in_group w id gs i <> UB.
Proof.
  revert i. induction gs as [|g gs IH]; intros i; [done|]. simpl. destruct (g_types g) as [a b].
  destruct (w_comps w !! a) as [sa|]; [|done]. destruct (w_comps w !! b) as [sb|]; [|done].
  pose proof (in_noub g (st_set sa) (st_set sb) id). destruct (g_in_group g _ _ id); try done.
  specialize (IH (S i)). by destruct (collect_in_group w id gs (S i)).
Qed.
Lemma ok_noub {S A} (m : M S A) : ok (fun _ => True) m -> forall s, (m s).1 <> UB.
Proof. intros H s. destruct (H s I) as [_ H2]. by destruct ((m s).1). Qed.
Lemma ok_put {S} (s' : S) : ok (fun _ => True) (put s').
Proof. done. Qed.
Lemma em_alloc_noub s : (em_allocate s).1 <> UB.
Proof. revert s. apply ok_noub. unfold em_allocate. repeat (okg; try apply ok_put). Qed.
Lemma em_alloc_n_noub n s : (em_allocate_n n s).1 <> UB.
Proof. done. Qed.
Lemma em_remove_noub id s : (em_remove id s).1 <> UB.
Proof. revert s. apply ok_noub. unfold em_remove. repeat (okg; try apply ok_put). Qed.

(** ** Plain queries *)
Fixpoint item_in w (it : item) : Prop :=
  match it with
  | IRef _ t i => is_Some (deref_loc w t i)
  | I2 a b => item_in w a /\ item_in w b
  | I3 a b c => item_in w a /\ item_in w b /\ item_in w c
  | I4 a b c d => item_in w a /\ item_in w b /\ item_in w c /\ item_in w d
  | I5 a b c d e => item_in w a /\ item_in w b /\ item_in w c /\ item_in w d /\ item_in w e
  end.
Lemma deref_in w it : item_in w it -> is_Some (deref w it).
Proof.
  induction it as [m t i|a IHa b IHb|a IHa b IHb c IHc|a IHa b IHb c IHc d IHd|a IHa b IHb c IHc d IHd e IHe]; simpl.
  - intros [? ->]. eauto.
  - intros (Ha & Hb). destruct (IHa Ha) as [? ->], (IHb Hb) as [? ->]. eauto.
  - intros (Ha & Hb & Hc). destruct (IHa Ha) as [? ->], (IHb Hb) as [? ->], (IHc Hc) as [? ->]. eauto.
  - intros (Ha & Hb & Hc & Hd). destruct (IHa Ha) as [? ->], (IHb Hb) as [? ->], (IHc Hc) as [? ->], (IHd Hd) as [? ->]. eauto.
  - intros (Ha & Hb & Hc & Hd & He).
    destruct (IHa Ha) as [? ->], (IHb Hb) as [? ->], (IHc Hc) as [? ->], (IHd Hd) as [? ->], (IHe He) as [? ->]. eauto.
Qed.
(** a result that is not undefined behaviour and, if an item, satisfies [P] *)
Definition fine {X} (P : X -> Prop) (o : outcome (option X)) : Prop :=
  match o with Ret (Some x) => P x | UB => False | _ => True end.
Record qsafe (T : list nat) (J : qiter V) : Prop := {
  qs_next : forall w st, good w -> Forall (fun t => is_Some (w_comps w !! t)) T -> fine (item_in w) (qi_next J w st).1;
  qs_next_id : forall w st, good w -> Forall (fun t => is_Some (w_comps w !! t)) T ->
    fine (fun x => item_in w x.2) (qi_next_id J w st).1;
  qs_from : forall w id st, good w -> Forall (fun t => is_Some (w_comps w !! t)) T -> fine (item_in w) (qi_from_id J w id st).1;
  qs_hint : forall w st, good w -> qi_hint J w st <> UB
}.
Lemma qsafe_ref m t : qsafe [t] (iter_ref m t).
Proof.
  split.
  - intros w i G HT. inversion HT as [|? ? [st E] _]; subst. destruct (gd_st w G t st E) as [_ W]. simpl.
    unfold bind, get, ptr. rewrite E. unfold ret. destruct (i <? ss_len (st_set st)) eqn:Hi; [|done].
    apply Nat.ltb_lt in Hi. unfold ss_len in Hi. rewrite (wf_len _ W) in Hi. unfold data_unchecked.
    apply Nat.ltb_lt in Hi as Hi'. rewrite Hi'. unfold ret, put. simpl. unfold deref_loc. rewrite E.
    by apply lookup_lt_is_Some.
  - intros w i G HT. inversion HT as [|? ? [st E] _]; subst. destruct (gd_st w G t st E) as [_ W]. simpl.
    unfold bind, get, ptr. rewrite E. unfold ret. destruct (i <? ss_len (st_set st)) eqn:Hi; [|done].
    apply Nat.ltb_lt in Hi. unfold ss_len in Hi. unfold ent_unchecked. destruct (lookup_lt_is_Some_2 _ _ Hi) as [e ->].
    rewrite (wf_len _ W) in Hi. unfold data_unchecked.
    apply Nat.ltb_lt in Hi as Hi'. rewrite Hi'. unfold ret, put. simpl. unfold deref_loc. rewrite E.
    by apply lookup_lt_is_Some.
  - intros w id i G HT. inversion HT as [|? ? [st E] _]; subst. destruct (gd_st w G t st E) as [_ W]. simpl.
    unfold bind, ptr. rewrite E. unfold ret, lift. rewrite (get_loc_wf id _ W).
    destruct (ss_get_index (st_set st) id) as [k|] eqn:Ek; [|done]. simpl. unfold deref_loc. rewrite E.
    apply (wf_pos _ W) in Ek. apply lookup_lt_Some in Ek. rewrite (wf_len _ W) in Ek. by apply lookup_lt_is_Some.
  - intros w i G. simpl. unfold sub_hint. by destruct (_ <? _).
Qed.
(** [m] is fine from every state *)
Definition mfine {S X} (P : X -> Prop) (m : M S (option X)) : Prop := forall s, fine P (m s).1.
Lemma mfine_fst {S T X} (P : X -> Prop) (m : M S (option X)) : mfine P m -> mfine P (@on_fst S T _ m).
Proof. intros H [s t]. unfold on_fst. specialize (H s). simpl in *. by destruct (m s). Qed.
Lemma mfine_snd {S T X} (P : X -> Prop) (m : M T (option X)) : mfine P m -> mfine P (@on_snd S T _ m).
Proof. intros H [s t]. unfold on_snd. specialize (H t). simpl in *. by destruct (m t). Qed.
Lemma mfine_ret_some {S X} (P : X -> Prop) x : P x -> mfine (S := S) P (ret (Some x)).
Proof. by intros ? ?. Qed.
Lemma mfine_ret_none {S X} (P : X -> Prop) : mfine (S := S) P (ret None).
Proof. by intros ?. Qed.
Lemma mfine_bind {S X Y} (P : X -> Prop) (Q : Y -> Prop) (m : M S (option X)) (k : option X -> M S (option Y)) :
  mfine P m -> (forall x, P x -> mfine Q (k (Some x))) -> mfine Q (k None) -> mfine Q (bind m k).
Proof.
  intros Hm Hk Hn s. unfold bind. specialize (Hm s). destruct (m s) as [[[x|]| | |] s']; simpl in *; try done.
  all: first [by apply Hk | by apply Hn].
Qed.
Lemma mfine_get {S Y} (Q : Y -> Prop) (k : S -> M S (option Y)) : (forall s, mfine Q (k s)) -> mfine Q (bind get k).
Proof. intros H s. apply H. Qed.
Lemma mfine_while {S X R} (P : X -> Prop) (Q : R -> Prop) fuel (next : M S (option X)) body :
  mfine P next -> (forall x, P x -> mfine Q (body x)) -> mfine Q (while_some fuel next body).
Proof.
  intros Hn Hb. induction fuel as [|fuel IH]; [by intros s|]. cbn [while_some].
  apply (mfine_bind P); [done| |apply mfine_ret_none].
  intros x Hx. apply (mfine_bind Q); [by apply Hb| |done]. intros r Hr. by apply mfine_ret_some.
Qed.
Ltac mf := repeat first
  [ progress intros
  | match goal with
    | |- mfine _ (ret None) => apply mfine_ret_none
    | |- mfine _ (ret (Some _)) => apply mfine_ret_some; simpl in *; tauto
    | |- mfine _ (on_fst _) => apply mfine_fst
    | |- mfine _ (on_snd _) => apply mfine_snd
    | |- mfine _ (bind get _) => apply mfine_get
    | H : qsafe _ ?J |- mfine _ (qi_next_id ?J ?w) => intros ?; apply (qs_next_id _ _ H); assumption
    | H : qsafe _ ?J |- mfine _ (qi_from_id ?J ?w ?id) => intros ?; apply (qs_from _ _ H); assumption
    | x : _ * item |- _ => destruct x
    | |- mfine _ (bind (on_fst (qi_from_id _ ?w _)) _) => apply (mfine_bind (item_in w))
    | |- mfine _ (bind (on_snd (qi_from_id _ ?w _)) _) => apply (mfine_bind (item_in w))
    | |- mfine _ (bind (on_snd (on_fst (qi_from_id _ ?w _))) _) => apply (mfine_bind (item_in w))
    | |- mfine _ (bind (on_snd (on_snd (qi_from_id _ ?w _))) _) => apply (mfine_bind (item_in w))
    | |- mfine _ (bind (on_snd (on_snd (on_fst (qi_from_id _ ?w _)))) _) => apply (mfine_bind (item_in w))
    | |- mfine _ (bind (on_snd (on_snd (on_snd (qi_from_id _ ?w _)))) _) => apply (mfine_bind (item_in w))
    | |- mfine _ (bind (on_snd (on_snd (on_snd (on_fst (qi_from_id _ ?w _))))) _) => apply (mfine_bind (item_in w))
    | |- mfine _ (bind (on_snd (on_snd (on_snd (on_snd (qi_from_id _ ?w _))))) _) => apply (mfine_bind (item_in w))
    | |- mfine _ (while_some _ (_ (qi_next_id _ ?w)) _) => apply (mfine_while (fun x : nat * item => item_in w x.2))
    end ].
Ltac qs_tac := split; [intros w st G HT; rewrite ?Forall_app in HT; decompose [and] HT; revert st; cbn [qi_next with2 with3 with4 with5 without_left without_right];
   match goal with |- forall st, fine ?P (?m st).1 => change (mfine P m) end; mf
  |intros w st G HT; rewrite ?Forall_app in HT; decompose [and] HT; revert st; cbn [qi_next_id with2 with3 with4 with5 without_left without_right];
   match goal with |- forall st, fine ?P (?m st).1 => change (mfine P m) end; mf
  |intros w id st G HT; rewrite ?Forall_app in HT; decompose [and] HT; revert st; cbn [qi_from_id with2 with3 with4 with5 without_left without_right];
   match goal with |- forall st, fine ?P (?m st).1 => change (mfine P m) end; mf
  |done].
Lemma qsafe_with2 T U A B : qsafe T A -> qsafe U B -> qsafe (T ++ U) (with2 A B).
Proof. intros HA HB. qs_tac. Qed.
Lemma qsafe_with3 T U X A B C : qsafe T A -> qsafe U B -> qsafe X C -> qsafe (T ++ U ++ X) (with3 A B C).
Proof. intros HA HB HC. qs_tac. Qed.
Lemma qsafe_with4 T U X Y A B C D : qsafe T A -> qsafe U B -> qsafe X C -> qsafe Y D -> qsafe (T ++ U ++ X ++ Y) (with4 A B C D).
Proof. intros HA HB HC HD. qs_tac. Qed.
Lemma qsafe_with5 T U X Y Z A B C D E : qsafe T A -> qsafe U B -> qsafe X C -> qsafe Y D -> qsafe Z E ->
  qsafe (T ++ U ++ X ++ Y ++ Z) (with5 A B C D E).
Proof. intros HA HB HC HD HE. qs_tac. Qed.
Lemma qsafe_left T U A B : qsafe T A -> qsafe U B -> qsafe (T ++ U) (without_left A B).
Proof. intros HA HB. qs_tac. Qed.
Lemma qsafe_right T U A B : qsafe T A -> qsafe U B -> qsafe (T ++ U) (without_right A B).
Proof. intros HA HB. qs_tac. Qed.

Definition okq (P : qiter V -> Prop) (m : M held (qiter V)) : Prop := forall h,
  match (m h).1 with Ret J => P J | UB => False | _ => True end.
Lemma okq_bind P Q m k : okq P m -> (forall J, P J -> okq Q (k J)) -> okq Q (bind m k).
Proof.
  intros Hm Hk h. specialize (Hm h). unfold bind. destruct (m h) as [[J| | |] h']; simpl in Hm; try done. by apply Hk.
Qed.
Lemma okq_ret (P : qiter V -> Prop) J : P J -> okq P (ret J).
Proof. by intros ? ?. Qed.
Definition typed w (J : qiter V) : Prop := exists T, qsafe T J /\ Forall (fun t => is_Some (w_comps w !! t)) T.
Lemma open_safe' w q : good w -> q_plain q = true -> okq (typed w) (query_open w q).
Proof.
  intros G. induction q as [m t|a IHa b IHb|a IHa b IHb c IHc|a IHa b IHb c IHc d IHd|a IHa b IHb c IHc d IHd e IHe
    |a IHa b IHb|a IHa b IHb|k ma mb a b]; intros Hp; cbn [q_plain] in Hp; rewrite ?andb_true_iff in Hp; cbn [query_open]; [..|done].
  { intros h. unfold bind, assert, has_registered. destruct (bool_decide _) eqn:Hr; [|done]. apply bool_decide_eq_true in Hr.
    unfold ret, lock, bind, get. destruct (lock_conflict h t m); [done|]. unfold put, downcast.
    destruct Hr as [st Hst]. rewrite Hst. destruct (gd_st w G t st Hst) as [-> _]. rewrite Nat.eqb_refl.
    unfold ret. simpl. exists [t]. split; [apply qsafe_ref|]. constructor; [eauto|done]. }
  - destruct Hp as [? ?]. eapply okq_bind; [by apply IHa|]. intros ? (? & ? & ?). eapply okq_bind; [by apply IHb|].
    intros ? (? & ? & ?). apply okq_ret. eexists. split; [by eapply qsafe_with2|]. rewrite Forall_app. tauto.
  - destruct Hp as [[? ?] ?]. eapply okq_bind; [by apply IHa|]. intros ? (? & ? & ?). eapply okq_bind; [by apply IHb|].
    intros ? (? & ? & ?). eapply okq_bind; [by apply IHc|]. intros ? (? & ? & ?).
    apply okq_ret. eexists. split; [by eapply qsafe_with3|]. rewrite !Forall_app. tauto.
  - destruct Hp as [[[? ?] ?] ?]. eapply okq_bind; [by apply IHa|]. intros ? (? & ? & ?). eapply okq_bind; [by apply IHb|].
    intros ? (? & ? & ?). eapply okq_bind; [by apply IHc|]. intros ? (? & ? & ?). eapply okq_bind; [by apply IHd|]. intros ? (? & ? & ?).
    apply okq_ret. eexists. split; [by eapply qsafe_with4|]. rewrite !Forall_app. tauto.
  - destruct Hp as [[[[? ?] ?] ?] ?]. eapply okq_bind; [by apply IHa|]. intros ? (? & ? & ?). eapply okq_bind; [by apply IHb|].
    intros ? (? & ? & ?). eapply okq_bind; [by apply IHc|]. intros ? (? & ? & ?). eapply okq_bind; [by apply IHd|]. intros ? (? & ? & ?).
    eapply okq_bind; [by apply IHe|]. intros ? (? & ? & ?).
    apply okq_ret. eexists. split; [by eapply qsafe_with5|]. rewrite !Forall_app. tauto.
  - destruct Hp as [? ?]. eapply okq_bind; [by apply IHa|]. intros ? (? & ? & ?). eapply okq_bind; [by apply IHb|].
    intros ? (? & ? & ?). apply okq_ret. eexists. split; [by eapply qsafe_left|]. rewrite Forall_app. tauto.
  - destruct Hp as [? ?]. eapply okq_bind; [by apply IHa|]. intros ? (? & ? & ?). eapply okq_bind; [by apply IHb|].
    intros ? (? & ? & ?). apply okq_ret. eexists. split; [by eapply qsafe_right|]. rewrite Forall_app. tauto.
Qed.
Lemma open_safe w q h : good w -> q_plain q = true ->
  match (query_open w q h).1 with
  | Ret J => exists T, qsafe T J /\ Forall (fun t => is_Some (w_comps w !! t)) T
  | UB => False
  | _ => True
  end.
Proof. intros G Hp. exact (open_safe' w q G Hp h). Qed.
Lemma collect_noub' fuel w J st T : good w -> Forall (fun t => is_Some (w_comps w !! t)) T -> qsafe T J ->
  collect fuel w J st <> UB.
Proof.
  intros G HT HJ. revert st. induction fuel as [|fuel IH]; intros st; [done|]. cbn [collect].
  pose proof (qs_next_id T J HJ w st G HT) as Hn. destruct (qi_next_id J w st) as [[[[id it]|]| | |] st']; simpl in Hn; try done.
  destruct (deref_in w it Hn) as [v ->]. specialize (IH st'). by destruct (collect fuel w J st').
Qed.
Lemma run_query_noub w q : good w -> q_plain q = true -> run_query w q <> UB.
Proof.
  intros G Hp. unfold run_query. pose proof (open_safe w q [] G Hp) as H.
  destruct (query_open w q []) as [[J| | |] h]; simpl in H; try done. destruct H as (T & HJ & HT). by eapply collect_noub'.
Qed.
Definition same_types w w' : Prop := forall t, is_Some (w_comps w !! t) -> is_Some (w_comps w' !! t).
Lemma same_refl w : same_types w w.
Proof. by intros t. Qed.
Lemma same_trans w w1 w2 : same_types w w1 -> same_types w1 w2 -> same_types w w2.
Proof. intros H1 H2 t Ht. by apply H2, H1. Qed.
Local Hint Resolve same_refl : core.
Lemma good_poke w t i f : good w -> good (poke w t i f) /\ same_types w (poke w t i f).
Proof.
  intros G. unfold poke. destruct (w_comps w !! t) as [st|] eqn:E; [|done].
  destruct (sdata (st_set st) !! i); [|done]. split; [apply good_comp; [done|done|by apply poke_wf, (gd_st w G t st E)]|].
  intros u Hu. simpl. destruct (decide (u = t)) as [->|]; [rewrite lookup_insert; eauto|by rewrite lookup_insert_ne].
Qed.
Lemma good_poke_item f id it w : good w -> good (poke_item f id it w) /\ same_types w (poke_item f id it w).
Proof.
  revert w. induction it as [m t i|a IHa b IHb|a IHa b IHb c IHc|a IHa b IHb c IHc d IHd|a IHa b IHb c IHc d IHd e IHe];
    intros w G; simpl.
  - destruct m; [by apply good_poke|done].
  - destruct (IHa w G) as [G1 S1], (IHb _ G1) as [G2 S2]. split; [done|]. eauto 8 using same_trans.
  - destruct (IHa w G) as [G1 S1], (IHb _ G1) as [G2 S2], (IHc _ G2) as [G3 S3]. split; [done|]. eauto 8 using same_trans.
  - destruct (IHa w G) as [G1 S1], (IHb _ G1) as [G2 S2], (IHc _ G2) as [G3 S3], (IHd _ G3) as [G4 S4]. split; [done|].
    eauto 8 using same_trans.
  - destruct (IHa w G) as [G1 S1], (IHb _ G1) as [G2 S2], (IHc _ G2) as [G3 S3], (IHd _ G3) as [G4 S4], (IHe _ G4) as [G5 S5].
    split; [done|]. eauto 8 using same_trans.
Qed.
Lemma types_Forall w w' T : same_types w w' -> Forall (fun t => is_Some (w_comps w !! t)) T -> Forall (fun t => is_Some (w_comps w' !! t)) T.
Proof. intros H HT. eapply Forall_impl; [exact HT|]. intros t. apply H. Qed.
Lemma drive_ok fuel J f st T w : good w -> Forall (fun t => is_Some (w_comps w !! t)) T -> qsafe T J ->
  good (drive fuel J f st w).2 /\ (drive fuel J f st w).1 <> UB.
Proof.
  intros G HT HJ. revert st w G HT. induction fuel as [|fuel IH]; intros st w G HT; [done|]. cbn [drive].
  pose proof (qs_next_id T J HJ w st G HT) as Hn. destruct (qi_next_id J w st) as [[[[id it]|]| | |] st']; simpl in Hn; try done.
  destruct (deref_in w it Hn) as [v ->]. destruct (good_poke_item f id it w G) as [G1 S1].
  destruct (IH st' _ G1 (types_Forall _ _ _ S1 HT)) as [G2 N2].
  destruct (drive fuel J f st' (poke_item f id it w)) as [[l| | |] w']; done.
Qed.
Lemma ok_query_mut q f : q_plain q = true -> ok good (run_query_mut q f).
Proof.
  intros Hp w G. unfold run_query_mut. pose proof (open_safe w q [] G Hp) as H.
  destruct (query_open w q []) as [[J| | |] h]; simpl in H; try done. destruct H as (T & HJ & HT).
  destruct (drive_ok (S (qi_fuel J w (qi_init J))) J f (qi_init J) T w G HT HJ) as [H1 H2]. split; [done|].
  by destruct ((drive _ J f _ w).1).
Qed.
Lemma good_rewrite g w : good w -> good (rewrite_values g w) /\ same_types w (rewrite_values g w).
Proof.
  intros [A B C]. split.
  - split; [|done|done]. intros t st. unfold rewrite_values. simpl. rewrite map_lookup_imap.
    destruct (w_comps w !! t) as [st0|] eqn:E; [|done]. simpl. intros [= <-]. simpl. destruct (A t st0 E) as [H1 H2].
    split; [done|]. destruct H2 as [L P N]. split; simpl; [by rewrite imap_length|exact P|exact N].
  - intros t [st E]. unfold rewrite_values. simpl. rewrite map_lookup_imap, E. simpl. eauto.
Qed.
Lemma run_calls_noub J cs T w st : good w -> Forall (fun t => is_Some (w_comps w !! t)) T -> qsafe T J ->
  (run_calls J cs (w, st)).1 <> UB.
Proof.
  intros G HT HJ. revert w st G HT. induction cs as [|c cs IH]; intros w st G HT; [done|]. cbn [run_calls].
  assert (forall w', (run_call J c (w, st)).1 <> UB /\ (forall a, (run_call J c (w, st)).1 = Ret a ->
     w' = (run_call J c (w, st)).2.1 -> good w' /\ same_types w w')) as H.
  { intros w'. destruct c; simpl.
    - pose proof (qs_next T J HJ w st G HT) as Hn. destruct (qi_next J w st) as [[[it|]| | |] st']; simpl in *; try done.
      + destruct (deref_in w it Hn) as [v ->]. simpl. split; [done|]. by intros a _ ->.
      + split; [done|]. by intros a _ ->.
    - pose proof (qs_next_id T J HJ w st G HT) as Hn. destruct (qi_next_id J w st) as [[[[id it]|]| | |] st']; simpl in *; try done.
      + destruct (deref_in w it Hn) as [v ->]. simpl. split; [done|]. by intros a _ ->.
      + split; [done|]. by intros a _ ->.
    - pose proof (qs_from T J HJ w id st G HT) as Hn. destruct (qi_from_id J w id st) as [[[it|]| | |] st']; simpl in *; try done.
      + destruct (deref_in w it Hn) as [v ->]. simpl. split; [done|]. by intros a _ ->.
      + split; [done|]. by intros a _ ->.
    - pose proof (qs_hint T J HJ w st G) as Hn. destruct (qi_hint J w st) as [n| | |]; simpl in *; try done.
      split; [done|]. by intros a _ ->.
    - split; [done|]. intros a _ ->. by apply good_rewrite. }
  unfold bind at 1. destruct (run_call J c (w, st)) as [[a| | |] [w1 st1]] eqn:E; simpl in H; try done.
  2:{ by destruct (H w1). }
  destruct (H w1) as [_ H']. destruct (H' a eq_refl eq_refl) as [G1 S1].
  specialize (IH w1 st1 G1 (types_Forall _ _ _ S1 HT)). unfold bind.
  by destruct (run_calls J cs (w1, st1)) as [[l| | |] s2].
Qed.
Lemma use_query_noub w q cs : good w -> q_plain q = true -> use_query w q cs <> UB.
Proof.
  intros G Hp. unfold use_query. pose proof (open_safe w q [] G Hp) as H.
  destruct (query_open w q []) as [[J| | |] h]; simpl in H; try done. destruct H as (T & HJ & HT). by eapply run_calls_noub.
Qed.

(** ** All calls *)
Lemma components_read_noub w t : good w -> components_read t w <> UB /\
  (forall s, components_read t w = Ret (Some s) -> ss_wf s).
Proof.
  intros G. unfold components_read. destruct (w_comps w !! t) as [st|] eqn:E; [|done].
  destruct (gd_st w G t st E) as [-> W]. rewrite Nat.eqb_refl. split; [done|]. by intros s [= <-].
Qed.
Lemma ok_components t {B} (k : option (sset V) -> M (world V) B) :
  (forall s, ss_wf s -> ok good (k (Some s))) -> ok good (k None) ->
  ok good (let! w := get in let! os := lift (components_read t w) in k os).
Proof.
  intros Hk Hn. apply ok_get_bind. intros w G. destruct (components_read_noub w t G) as [H1 H2].
  unfold bind, lift. destruct (components_read t w) as [[s|]| | |]; try done.
  - destruct (Hk s (H2 s eq_refl) w G). split; [done|]. by destruct ((k (Some s) w).1).
  - destruct (Hn w G). split; [done|]. by destruct ((k None w).1).
Qed.
Lemma ok_read_op {A} t (f : sset V -> outcome A) : (forall s, ss_wf s -> f s <> UB) -> ok good (via_storage t f).
Proof.
  intros Hf. apply ok_components; [|apply ok_ret]. intros s W. apply ok_bind; [by apply ok_lift, Hf|]. intros a. apply ok_ret.
Qed.
(** the calls the result speaks of: the queries are plain, a batch attach hits
    only entities without the type *)
Definition tame w (o : op V) : Prop :=
  match o with
  | Query q | QueryMut q _ => q_plain q = true
  | BatchAttach lo hi t _ => forall id st, lo <= id < hi -> w_comps w !! t = Some st -> ss_exist (st_set st) id = false
  | _ => True
  end.
Ltac okw := repeat first
  [ progress intros
  | match goal with
    | |- ok _ (ret _) => apply ok_ret
    | |- ok _ get => apply ok_get
    | |- ok _ (assert _) => apply ok_assert
    | |- ok _ (unwrap _) => apply ok_unwrap
    | |- ok _ (fmapM _ _) => apply ok_fmapM
    | |- ok _ (storage_mut _ _) => apply ok_storage_mut
    | |- ok _ (dyn_mut _ _) => apply ok_dyn_mut
    | |- ok _ (run_group_at _ _ _ _) => apply ok_run_group
    | |- ok _ (for_each _ _) => apply ok_for_each
    | |- ok _ (lift (exist _ _)) => apply ok_lift, exist_noub
    | |- ok _ (lift (collect_in_group _ _ _ _)) => apply ok_lift, collect_noub
    | |- ok _ (on_em em_allocate) => apply ok_on_em, em_alloc_noub
    | |- ok _ (on_em (em_allocate_n _)) => apply ok_on_em, em_alloc_n_noub
    | |- ok _ (on_em (em_remove _)) => apply ok_on_em, em_remove_noub
    | |- ok _ (ss_add _ _) => apply ok_add
    | |- ok _ (ss_remove _) => apply ok_remove
    | |- ok _ (cs_remove _) => apply ok_cs_remove
    | |- ok _ (full_add _) => apply ok_full_add
    | |- ok _ (full_remove _) => apply ok_full_remove
    | |- ok _ full_make => apply ok_full_make
    | |- ok _ (part_add _) => apply ok_part_add
    | |- ok _ (part_remove _) => apply ok_part_remove
    | |- ok _ part_make => apply ok_part_make
    | |- ok _ (non_add _) => apply ok_non_add
    | |- ok _ (non_remove _) => apply ok_non_remove
    | |- ok _ non_make => apply ok_non_make
    | |- ok _ (on_a _) => apply ok_on_a
    | |- ok _ (on_b _) => apply ok_on_b
    | |- ok _ panic => apply ok_panic
    | |- ok _ (let! s := get in put (ss_poke _ _ s)) => apply ok_poke
    | |- ok _ (bind _ _) => apply ok_bind
    | |- ok _ (if ?b then _ else _) => destruct b
    end ].
Lemma of_ok {A} (m : M (world V) A) w : good w -> ok good m -> good (m w).2 /\ (m w).1 <> UB.
Proof. intros G H. destruct (H w G) as [H1 H2]. split; [done|]. by destruct ((m w).1). Qed.
Lemma of_fmapM {A B} (f : A -> B) (m : M (world V) A) w :
  good (m w).2 /\ (m w).1 <> UB -> good (fmapM f m w).2 /\ (fmapM f m w).1 <> UB.
Proof. unfold fmapM, bind, ret. destruct (m w) as [[a| | |] w']; simpl; intros [? ?]; split; congruence. Qed.
Lemma batch_wf lo n (vs : list V) s : ss_wf s -> (forall id, lo <= id < lo + n -> ss_exist s id = false) -> length vs = n ->
  ss_wf (ss_add_batch (seq lo n) vs s).2 /\ (ss_add_batch (seq lo n) vs s).1 <> UB.
Proof.
  intros W Hf Hl. rewrite add_batch_seq; [|done|by rewrite seq_length|apply NoDup_seq|].
  2:{ intros e He. apply elem_of_seq in He. by apply exist_pos_false, Hf. }
  clear Hf. revert s lo n Hl W. induction vs as [|v vs IH]; intros s lo [|n] Hl W; try done.
  simpl. unfold bind. destruct (add_spec lo v s W) as (s' & -> & W' & _). apply IH; [by injection Hl|done].
Qed.
Lemma good_step w o : good w -> tame w o -> good (step o w).2 /\ (step o w).1 <> UB.
Proof.
  intros G Ht. destruct o; cbn [step].
  - (* Register *)
    apply of_ok; [done|]. apply ok_fmapM. unfold register. apply ok_get_bind. clear w G Ht. intros w G. unfold bind, assert.
    destruct (negb _); [|done]. unfold ret, put. cbn [fst snd]. split; [|done]. destruct G as [A B C]. split; [|done|done].
    intros u st. simpl. destruct (decide (u = t)) as [->|].
    + rewrite lookup_insert. intros [= <-]. split; [done|apply wf_new].
    + rewrite lookup_insert_ne by done. apply A.
  - apply of_ok; [done|]. okw.
  - apply of_ok; [done|]. unfold create_entity. okw.
  - apply of_ok; [done|]. unfold create_entities. okw.
  - apply of_ok; [done|]. unfold remove_entity. okw.
  - apply of_ok; [done|]. okw.
  - apply of_ok; [done|]. unfold attach_component, entity_attach. okw.
  - apply of_ok; [done|]. unfold detach_component, entity_detach. okw.
  - (* BatchAttach *)
    apply of_fmapM. unfold entities_attach. destruct (length vs =? hi - lo) eqn:E; [|by rewrite bind_assert_false].
    rewrite bind_assert_true by done. apply Nat.eqb_eq in E. cbn [tame] in Ht.
    unfold storage_mut. destruct (w_comps w !! t) as [st|] eqn:Hst; [|done].
    destruct (gd_st w G t st Hst) as [Hty W]. rewrite Hty, Nat.eqb_refl.
    destruct (batch_wf lo (hi - lo) vs (st_set st) W) as [W' N]; [|done|].
    { intros id Hid. apply (Ht id st); [lia|done]. }
    destruct (ss_add_batch (seq lo (hi - lo)) vs (st_set st)) as [o s']. cbn [fst snd] in *.
    assert (good (set_comps (<[t:=St t s']> (w_comps w)) w)) as G' by (rewrite <- Hty at 2; by apply good_comp).
    by destruct o.
  - (* ReadComp *)
    apply of_ok; [done|]. apply ok_fmapM. unfold entity_component_read. apply ok_components; [|apply ok_ret]. intros s W.
    destruct (ss_exist s id) eqn:E; [|apply ok_ret]. destruct (get_unchecked_ok s id W E) as (i & v & -> & Hv).
    intros w' G'. unfold bind, lift. by rewrite Hv.
  - (* WriteComp *)
    apply of_ok; [done|]. apply ok_fmapM. unfold entity_component_write. apply ok_components; [|apply ok_ret]. intros s W.
    destruct (ss_exist s id) eqn:E; [|apply ok_ret]. destruct (get_unchecked_ok s id W E) as (i & u & -> & Hv).
    apply ok_bind; [by apply ok_lift|]. okw.
  - apply of_ok; [done|]. apply ok_fmapM, ok_read_op. done.
  - apply of_ok; [done|]. apply ok_fmapM, ok_read_op. done.
  - apply of_ok; [done|]. apply ok_fmapM, ok_read_op. done.
  - apply of_ok; [done|]. apply ok_fmapM, ok_read_op. intros s W. unfold ss_get.
    destruct (indices s !! id) as [[k|]|]; try done. by destruct (sdata s !! _).
  - apply of_ok; [done|]. apply ok_fmapM, ok_read_op. done.
  - (* StoreGetMut *)
    apply of_ok; [done|]. apply ok_fmapM. unfold storage_get_mut. apply ok_components; [|apply ok_ret]. intros s W.
    apply ok_bind; [apply ok_lift; by rewrite get_loc_wf|]. intros [i|]; okw.
  - (* StoreDataSet *)
    apply of_ok; [done|]. apply ok_fmapM. unfold storage_data_set. apply ok_components; [|apply ok_ret]. intros s W. okw.
  - (* MakeGroup *)
    apply of_ok; [done|]. apply ok_fmapM. unfold make_group. clear w G Ht. intros w G. rewrite bind_get.
    destruct (negb (has_group _ w)); [rewrite bind_assert_true by done|by rewrite bind_assert_false].
    destruct (negb (owner_conflict _ w)); [rewrite bind_assert_true by done|by rewrite bind_assert_false].
    rewrite bind_put. apply ok_run_group; [apply ok_full_make|apply ok_part_make|apply ok_non_make|].
    destruct G as [A B C]. split; [done| |done]. intros i d. simpl. rewrite lookup_app_Some.
    intros [H|[_ H]]; [by apply (B i)|]. apply list_lookup_singleton_Some in H as [_ H]. destruct k; try done.
    simpl in H. injection H as <-. apply wf_new.
  - (* Query *)
    pose proof (run_query_noub w q G Ht) as H. unfold bind, get, fmapM, lift, bind, ret. by destruct (run_query w q).
  - apply of_ok; [done|]. apply ok_fmapM. by apply ok_query_mut.
  - (* RegisterRes *)
    destruct G as [A B C]. split; [|done]. split; [done|done|]. intros r' x. simpl. destruct (decide (r' = r)) as [->|].
    + rewrite lookup_insert. by intros [= <-].
    + rewrite lookup_insert_ne by done. apply C.
  - (* ReadRes *)
    unfold fmapM, resource_read, bind, get, ret. destruct (w_res w !! r) as [x|] eqn:E; [|done].
    rewrite (gd_res w G r x E), Nat.eqb_refl. done.
  - (* WriteRes *)
    unfold fmapM, resource_write, bind, get, ret. destruct (w_res w !! r) as [x|] eqn:E; [|done].
    rewrite (gd_res w G r x E), Nat.eqb_refl. simpl. split; [|done].
    destruct G as [A B C]. split; [done|done|]. intros r' y. simpl. destruct (decide (r' = r)) as [->|].
    + rewrite lookup_insert. by intros [= <-].
    + rewrite lookup_insert_ne by done. apply C.
Qed.
End wf.

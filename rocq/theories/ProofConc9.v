(** What a piece of work does to the values. *)
From stdpp Require Import prelude list gmap.
From Verif Require Import Base Api ModelSparse ModelEntity ModelGroup ModelWorld ModelQuery ModelStep ModelConc SpecConc
  Spec History ProofSparse ProofWorld ProofWf ProofTerm ProofConc ProofConc2 ProofConc3 ProofConc4 ProofConc5 ProofConc6 ProofConc7 ProofConc8.

Section values.
Context {V : Type}.
Implicit Types (w : world V).

(** ** Sparse sets: values as given, that of [o] possibly gone *)
Definition vI (o : option nat) (val : nat -> option V) (s : sset V) : Prop :=
  ss_wf s /\ forall x, ss_lookup s x = val x \/ (o = Some x /\ ss_lookup s x = None).
Lemma vI_swap o val i j : ok (vI o val) (ss_swap_by_index i j).
Proof.
  intros s [W H]. destruct (decide (i < length (entities s) /\ j < length (entities s))) as [[Hi Hj]|Hn].
  - destruct (swap_by_index_spec i j s W Hi Hj) as (s' & E & W' & L & _). rewrite E. split; [|done]. split; [done|].
    intros x. simpl. rewrite L. apply H.
  - unfold ss_swap_by_index, bind, get, ss_len. destruct (i =? j); [done|].
    destruct (length (entities s) <=? i) eqn:E1; [done|]. destruct (length (entities s) <=? j) eqn:E2; [done|].
    apply Nat.leb_gt in E1, E2. lia.
Qed.
Lemma vI_remove val e : ok (vI (Some e) val) (ss_remove e).
Proof.
  intros s [W H]. destruct (ss_get_index s e) as [i|] eqn:E.
  - destruct (remove_spec e i s W E) as (v & s' & Er & _ & W' & L & _). rewrite Er. split; [|done]. split; [done|].
    intros x. simpl. rewrite L. destruct (decide (x = e)) as [->|]; [by right|apply H].
  - destruct (decide (e = length (indices s))) as [He|He].
    + by rewrite (remove_spec_Panic e s He).
    + by rewrite (remove_spec_None e s E He).
Qed.
Lemma vI_cs_remove val e : ok (vI (Some e) val) (cs_remove e).
Proof. unfold cs_remove. apply ok_bind; [apply vI_remove|]. intros r. apply ok_bind; [apply ok_unwrap|]. intros _. apply ok_ret. Qed.

(** ** Groups *)
Definition gV {D} (o : option nat) (P : D -> Prop) va vb (c : gctx V D) : Prop := P (gc_d c) /\ vI o va (gc_a c) /\ vI o vb (gc_b c).
Lemma gV_on_a {D A} o (P : D -> Prop) va vb (m : M (sset V) A) : ok (vI o va) m -> ok (gV o P va vb) (on_a m).
Proof.
  intros H c (H1 & H2 & H3). unfold on_a. specialize (H _ H2). destruct (m (gc_a c)) as [r a']. simpl in *.
  destruct H. split; [done|by destruct r].
Qed.
Lemma gV_on_b {D A} o (P : D -> Prop) va vb (m : M (sset V) A) : ok (vI o vb) m -> ok (gV o P va vb) (on_b m).
Proof.
  intros H c (H1 & H2 & H3). unfold on_b. specialize (H _ H3). destruct (m (gc_b c)) as [r a']. simpl in *.
  destruct H. split; [done|by destruct r].
Qed.
Lemma gV_on_d {D A} o (P : D -> Prop) va vb (m : M D A) : ok P m -> ok (gV o P va vb) (on_d m).
Proof.
  intros H c (H1 & H2 & H3). unfold on_d. specialize (H _ H1). destruct (m (gc_d c)) as [r a']. simpl in *.
  destruct H. split; [done|by destruct r].
Qed.
Ltac okv := repeat first
  [ progress intros
  | match goal with
    | |- ok _ (ret _) => apply ok_ret
    | |- ok _ get => apply ok_get
    | |- ok _ (assert _) => apply ok_assert
    | |- ok _ (unwrap _) => apply ok_unwrap
    | |- ok _ (bind _ _) => apply ok_bind
    | |- ok _ (on_a _) => apply gV_on_a
    | |- ok _ (on_b _) => apply gV_on_b
    | |- ok _ (on_d _) => apply gV_on_d
    | |- ok _ (on_nd _) => apply ok_on_nd
    | |- ok (vI _ _) (ss_swap_by_index _ _) => apply vI_swap
    | |- ok (vI _ _) (cs_remove _) => apply vI_cs_remove
    | |- ok _ (ss_swap_by_index _ _) => apply ok_swap
    | |- ok _ (ss_add _ _) => apply ok_add
    | |- ok _ (ss_remove _) => apply ok_remove
    | |- ok _ (lift (full_in_group _ _ _ _)) => apply ok_lift, full_in_noub
    | |- ok _ (lift (part_in_group _ _ _ _)) => apply ok_lift, part_in_noub
    | |- ok _ (lift (non_in_group _ _ _ _)) => apply ok_lift, non_in_noub
    | |- ok _ (full_set_len _) => done
    | |- ok _ (part_set_len _) => done
    | |- ok _ (if ?b then _ else _) => destruct b
    | |- ok _ (match ?b with _ => _ end) => destruct b
    end ].
Lemma gV_full_add o va vb id : ok (gV o (fun _ => True) va vb) (full_add id).
Proof. unfold full_add. okv. Qed.
Lemma gV_full_remove o va vb id : ok (gV o (fun _ => True) va vb) (full_remove id).
Proof. unfold full_remove. okv. Qed.
Lemma gV_full_kill va vb id : ok (gV (Some id) (fun _ => True) va vb) (full_remove id >>! on_a (cs_remove id) >>! on_b (cs_remove id)).
Proof. apply ok_bind; [apply gV_full_remove|]. okv. Qed.
Lemma gV_part_add o va vb id : ok (gV o (fun _ => True) va vb) (part_add id).
Proof. unfold part_add. okv. Qed.
Lemma gV_part_remove o va vb id : ok (gV o (fun _ => True) va vb) (part_remove id).
Proof. unfold part_remove. okv. Qed.
Lemma gV_part_kill va vb id : ok (gV (Some id) (fun _ => True) va vb) (part_remove id >>! on_a (cs_remove id)).
Proof. apply ok_bind; [apply gV_part_remove|]. okv. Qed.

(** ** Worlds *)
Definition wvalue w (t id : nat) : option V := match w_comps w !! t with Some st => ss_lookup (st_set st) id | None => None end.
Lemma shows_wvalue w t id : good w -> shows w t id = wvalue w t id.
Proof.
  intros G. unfold shows, wvalue. cbn [step]. unfold fmapM, entity_component_read, components_read, bind, get, lift, ret, ub.
  destruct (w_comps w !! t) as [st|] eqn:E; [|done]. destruct (gd_st w G t st E) as [Hty W]. rewrite Hty, Nat.eqb_refl.
  destruct (ss_exist (st_set st) id) eqn:Ex.
  - destruct (get_unchecked_ok _ _ W Ex) as (i & v & Hi & Hv). rewrite Hi, Hv. simpl.
    assert (is_Some (ss_lookup (st_set st) id)) as [v' Hv'] by by apply exist_lookup.
    rewrite Hv'. unfold ss_lookup in Hv'. apply exist_pos in Ex as [j Hj]. rewrite Hj in Hv'.
    rewrite (get_unchecked_wf _ _ _ W Hj) in Hi. injection Hi as ->. congruence.
  - destruct (ss_lookup (st_set st) id) eqn:El; [|done]. assert (ss_exist (st_set st) id = true) by (apply exist_lookup; [done|by eexists]). congruence.
Qed.
Lemma wv_em e w t id : wvalue (set_em e w) t id = wvalue w t id.
Proof. done. Qed.
Lemma wv_comp w u s t id : wvalue (set_comps (<[u := s]> (w_comps w)) w) t id = if decide (u = t) then ss_lookup (st_set s) id else wvalue w t id.
Proof. unfold wvalue. simpl. destruct (decide (u = t)) as [->|]; [by rewrite lookup_insert|by rewrite lookup_insert_ne]. Qed.
Lemma wv_storage {A} w u (m : M (sset V) A) t id : good w ->
  wvalue (storage_mut u m w).2 t id = match w_comps w !! u with
    | Some st => if decide (u = t) then ss_lookup (m (st_set st)).2 id else wvalue w t id | None => wvalue w t id end.
Proof.
  intros G. unfold storage_mut. destruct (w_comps w !! u) as [st|] eqn:E; [|done]. destruct (gd_st w G u st E) as [Hty W].
  rewrite Hty, Nat.eqb_refl. destruct (m (st_set st)) as [o s']. simpl. by rewrite wv_comp.
Qed.
Lemma wv_dyn {A} w u (m : M (sset V) A) t id : 
  wvalue (dyn_mut u m w).2 t id = match w_comps w !! u with
    | Some st => if decide (u = t) then ss_lookup (m (st_set st)).2 id else wvalue w t id | None => wvalue w t id end.
Proof.
  unfold dyn_mut. destruct (w_comps w !! u) as [st|] eqn:E; [|done].
  destruct (m (st_set st)) as [o s']. simpl. by rewrite wv_comp.
Qed.
Lemma group_values o i ff fp fn w : good w -> (forall va vb, ok (gV o (fun _ => True) va vb) ff) -> (forall va vb, ok (gV o (fun _ => True) va vb) fp) ->
  forall t id, wvalue (run_group_at i ff fp fn w).2 t id = wvalue w t id \/
    (owned_by w i t = true /\ o = Some id /\ wvalue (run_group_at i ff fp fn w).2 t id = None).
Proof.
  intros G Hf Hp t id. unfold run_group_at, owned_by, group_head. destruct (w_groups w !! i) as [[d|d|d]|] eqn:Hi; [..|by left].
  - destruct (w_comps w !! fd_a d) as [sa|] eqn:Ha; [|by left].
    destruct (fd_a d =? fd_b d) eqn:Hab; [by left|]. apply Nat.eqb_neq in Hab.
    destruct (w_comps w !! fd_b d) as [sb|] eqn:Hb; [|by left].
    destruct (gd_st w G _ _ Ha) as [_ Wa], (gd_st w G _ _ Hb) as [_ Wb].
    destruct (Hf (ss_lookup (st_set sa)) (ss_lookup (st_set sb)) (GC d (st_set sa) (st_set sb))) as [(_ & [_ F1] & [_ F2]) _].
    { split; [done|]. split; (split; [done|]); intros x; by left. }
    destruct (ff _) as [r c]. simpl in *. unfold wvalue. simpl.
    destruct (decide (fd_b d = t)) as [<-|H1]; [|destruct (decide (fd_a d = t)) as [<-|H2]].
    + rewrite lookup_insert, Hb. simpl. destruct (F2 id) as [->|[-> ->]]; [by left|right]. split; [|done].
      rewrite orb_true_iff, !Nat.eqb_eq. by right.
    + rewrite lookup_insert_ne, lookup_insert, Ha by done. simpl. destruct (F1 id) as [->|[-> ->]]; [by left|right]. split; [|done].
      rewrite orb_true_iff, !Nat.eqb_eq. by left.
    + rewrite !lookup_insert_ne by done. by left.
  - destruct (w_comps w !! pd_a d) as [sa|] eqn:Ha; [|by left].
    destruct (pd_a d =? pd_b d) eqn:Hab; [by left|].
    destruct (w_comps w !! pd_b d) as [sb|] eqn:Hb; [|by left].
    destruct (gd_st w G _ _ Ha) as [_ Wa], (gd_st w G _ _ Hb) as [_ Wb].
    destruct (Hp (ss_lookup (st_set sa)) (ss_lookup (st_set sb)) (GC d (st_set sa) (st_set sb))) as [(_ & [_ F1] & [_ F2]) _].
    { split; [done|]. split; (split; [done|]); intros x; by left. }
    destruct (fp _) as [r c]. simpl in *. unfold wvalue. simpl. destruct (decide (pd_a d = t)) as [<-|H2].
    + rewrite lookup_insert, Ha. simpl. destruct (F1 id) as [->|[-> ->]]; [by left|right]. split; [|done]. by rewrite Nat.eqb_refl.
    + rewrite !lookup_insert_ne by done. by left.
  - left. destruct (w_comps w !! nd_a d) as [sa|] eqn:Ha; [|done].
    destruct (w_comps w !! nd_b d) as [sb|] eqn:Hb; [|done]. by destruct (fn _).
Qed.
Lemma batch_lookup lo n (vs : list V) s x : ss_wf s -> (forall id, lo <= id < lo + n -> ss_exist s id = false) -> length vs = n ->
  ss_lookup (ss_add_batch (seq lo n) vs s).2 x = if decide (lo <= x < lo + n) then vs !! (x - lo) else ss_lookup s x.
Proof.
  intros W Hf Hl. rewrite add_batch_seq; [|done|by rewrite seq_length|apply NoDup_seq|].
  2:{ intros e He. apply elem_of_seq in He. by apply exist_pos_false, Hf. }
  clear Hf. revert s lo n Hl W. induction vs as [|v vs IH]; intros s lo [|n] Hl W; try done.
  - simpl. unfold ret. by rewrite decide_False by lia.
  - simpl. unfold bind. destruct (add_spec lo v s W) as (s' & -> & W' & L & _). rewrite IH; [|by injection Hl|done]. rewrite L.
    destruct (decide (x = lo)) as [->|Hx].
    + rewrite decide_False by lia. rewrite decide_True by lia. by rewrite Nat.sub_diag.
    + destruct (decide (S lo <= x < S lo + n)).
      * rewrite decide_True by lia. by replace (x - lo) with (S (x - S lo)) by lia.
      * by rewrite decide_False by lia.
Qed.
Lemma remove_lookup (s : sset V) e x : ss_wf s -> ss_lookup (ss_remove e s).2 x = if decide (x = e) then None else ss_lookup s x.
Proof.
  intros W. destruct (ss_get_index s e) as [i|] eqn:E.
  - destruct (remove_spec e i s W E) as (v & s' & Er & _ & W' & L & _). rewrite Er. apply L.
  - assert ((ss_remove e s).2 = s) as ->.
    { destruct (decide (e = length (indices s))) as [He|He]; [by rewrite (remove_spec_Panic e s He)|by rewrite (remove_spec_None e s E He)]. }
    destruct (decide (x = e)) as [->|]; [|done]. unfold ss_lookup. by rewrite E.
Qed.
Lemma cs_remove_lookup (s : sset V) e x : ss_wf s -> ss_lookup (cs_remove e s).2 x = if decide (x = e) then None else ss_lookup s x.
Proof.
  intros W. rewrite <- (remove_lookup s e x W). unfold cs_remove, bind, unwrap, ret. destruct (ss_remove e s) as [[[v|]| | |] s']; done.
Qed.
Lemma exists_lookup (s s' : sset V) id : ss_wf s -> ss_wf s' -> indices s = indices s' -> is_Some (ss_lookup s' id) <-> is_Some (ss_lookup s id).
Proof. intros W W' E. rewrite <- (exist_lookup s id W), <- (exist_lookup s' id W'). unfold ss_exist, ss_get_index. by rewrite E. Qed.
Lemma exist_none (s : sset V) id : ss_wf s -> ss_exist s id = false -> ss_lookup s id = None.
Proof.
  intros W E. destruct (ss_lookup s id) eqn:El; [|done]. assert (ss_exist s id = true) by (apply exist_lookup; [done|by eexists]). congruence.
Qed.
Lemma set_value w o t u id x v : good w ->
  (forall st, w_comps w !! t = Some st ->
    match (write_fun o (Some st)).2 with
    | Some s' => exists i, ss_get_index (st_set st) x = Some i /\ s' = ss_poke i v (st_set st)
    | None => ss_lookup (st_set st) x = None
    end) ->
  wvalue (on_store t (write_fun o) w).2 u id =
    if decide (t = u /\ x = id) then match wvalue w u id with Some _ => Some v | None => None end else wvalue w u id.
Proof.
  intros G H. unfold on_store. destruct (w_comps w !! t) as [st|] eqn:E.
  - specialize (H st eq_refl). destruct (write_fun o (Some st)) as [oo [s'|]]; cbn [snd] in *.
    + destruct H as (i & Hi & ->). rewrite wv_comp. destruct (gd_st w G t st E) as [_ W]. destruct (decide (t = u)) as [<-|Hne].
      * cbn [st_set]. unfold wvalue. rewrite E. unfold ss_lookup, ss_poke, ss_get_index in *. cbn [indices sdata].
        destruct (decide (t = t /\ x = id)) as [[_ <-]|Hne].
        -- rewrite Hi. assert (i < length (sdata (st_set st))) as Hlt. { rewrite <- (wf_len _ W). apply (wf_pos _ W) in Hi. by eapply lookup_lt_Some. }
           rewrite list_lookup_insert by done. apply lookup_lt_is_Some_2 in Hlt as [y ->]. done.
        -- destruct (indices (st_set st) !! id) as [[k|]|] eqn:Ek; try done. rewrite list_lookup_insert_ne; [done|]. intros Hk. apply Hne. split; [done|].
           assert (ss_get_index (st_set st) id = Some i) as Hi'. { unfold ss_get_index. rewrite Ek. by rewrite Hk. }
           apply (wf_pos _ W) in Hi'. apply (wf_pos _ W) in Hi. congruence.
      * rewrite decide_False by tauto. done.
    + destruct (decide (t = u /\ x = id)) as [[<- <-]|]; [|done]. unfold wvalue. rewrite E, H. done.
  - cbn. destruct (decide (t = u /\ x = id)) as [[<- <-]|]; [|done]. unfold wvalue. by rewrite E.
Qed.
Lemma moves_values lab w w' : good w -> good w' -> batch_fresh lab w -> moves lab w w' ->
  forall t id, work_on w lab t id (wvalue w t id) (wvalue w' t id).
Proof.
  intros G G' Hb Hm t id. unfold moves in Hm. destruct lab as [| |n|i|u i v|u lo hi vs|u i|u i|i e|i e|i e| |o]; cbn [work_on effect] in *; try subst w'; try done.
  - unfold on_em. by destruct (em_allocate (w_em w)).
  - unfold on_em. by destruct (em_remove i (w_em w)).
  - rewrite wv_storage by done. destruct (w_comps w !! u) as [st|] eqn:E.
    + destruct (gd_st w G u st E) as [_ W]. destruct (add_spec i v (st_set st) W) as (s' & -> & _ & L & _). simpl. rewrite L.
      destruct (decide (u = t)) as [->|]; [|rewrite decide_False by tauto; done]. unfold wvalue. rewrite E.
      assert (has_registered t w = true) as Hr by by apply bool_decide_eq_true.
      destruct (decide (id = i)) as [->|]; [by rewrite decide_True|by rewrite decide_False by naive_solver].
    + rewrite decide_False; [done|]. intros (-> & _ & Hr%bool_decide_eq_true). rewrite E in Hr. by destruct Hr.
  - rewrite wv_storage by done. destruct (w_comps w !! u) as [st|] eqn:E.
    2:{ rewrite decide_False; [done|]. intros (-> & _ & _ & Hr%bool_decide_eq_true). rewrite E in Hr. by destruct Hr. }
    destruct (gd_st w G u st E) as [_ W]. destruct (decide (length vs = hi - lo)) as [El|El].
    + rewrite batch_lookup; [|done| |done].
      2:{ intros x Hx. apply (Hb x st); [lia|done]. }
      destruct (decide (u = t)) as [->|]; [|rewrite decide_False by tauto; done]. unfold wvalue. rewrite E.
      assert (has_registered t w = true) as Hr by by apply bool_decide_eq_true.
      destruct (decide (lo <= id < lo + (hi - lo))); [rewrite decide_True by (repeat split; try done; lia); done|].
      rewrite decide_False; [done|]. intros (_ & ? & _). lia.
    + rewrite (decide_False (P := u = t /\ lo <= id < hi /\ length vs = hi - lo /\ has_registered t w = true)) by (intros (_ & _ & Hl & _); lia). unfold ss_add_batch, bind, get, assert, panic. rewrite seq_length, (proj2 (Nat.eqb_neq _ _)) by done. simpl.
      destruct (decide (u = t)) as [->|]; [|done]. unfold wvalue. by rewrite E.
  - rewrite wv_storage by done. destruct (w_comps w !! u) as [st|] eqn:E.
    + destruct (gd_st w G u st E) as [_ W]. destruct (decide (u = t)) as [->|]; [|rewrite decide_False by tauto; done].
      unfold wvalue. rewrite E. rewrite (remove_lookup _ _ _ W). destruct (decide (id = i)) as [->|]; [by rewrite decide_True|by rewrite decide_False by naive_solver].
    + destruct (decide (u = t /\ i = id)) as [[-> ->]|]; [|done]. unfold wvalue. by rewrite E.
  - rewrite wv_dyn. destruct (w_comps w !! u) as [st|] eqn:E.
    + destruct (gd_st w G u st E) as [_ W]. destruct (decide (u = t)) as [->|]; [|rewrite decide_False by tauto; done].
      unfold wvalue. rewrite E. rewrite (cs_remove_lookup _ _ _ W). destruct (decide (id = i)) as [->|]; [by rewrite decide_True|by rewrite decide_False by naive_solver].
    + destruct (decide (u = t /\ i = id)) as [[-> ->]|]; [|done]. unfold wvalue. by rewrite E.
  - destruct (group_values None i _ _ (non_add e) w G (fun va vb => gV_full_add None va vb e) (fun va vb => gV_part_add None va vb e) t id) as [->|(_ & ? & _)]; done.
  - destruct (group_values None i _ _ (non_remove e) w G (fun va vb => gV_full_remove None va vb e) (fun va vb => gV_part_remove None va vb e) t id) as [->|(_ & ? & _)]; done.
  - destruct (group_values (Some e) i _ _ (non_remove e) w G (fun va vb => gV_full_kill va vb e) (fun va vb => gV_part_kill va vb e) t id) as [->|(H1 & H2 & H3)]; [by left|right].
    injection H2 as ->. done.
  - destruct Hm as (_ & _ & Hm & _). specialize (Hm t). unfold wvalue.
    destruct (w_comps w !! t) as [st|] eqn:E, (w_comps w' !! t) as [st'|] eqn:E'; simpl in Hm; try done.
    injection Hm as H1 H2. apply exists_lookup; [apply (gd_st w G t st E)|apply (gd_st w' G' t st' E')|done].
  - destruct Hm as [(_ & _ & Hm & _) Hw].
    assert (is_Some (wvalue w' t id) <-> is_Some (wvalue w t id)) as Hiff.
    { specialize (Hm t). unfold wvalue.
      destruct (w_comps w !! t) as [st|] eqn:E, (w_comps w' !! t) as [st'|] eqn:E'; simpl in Hm; try done.
      injection Hm as H1 H2. apply exists_lookup; [apply (gd_st w G t st E)|apply (gd_st w' G' t st' E')|done]. }
    destruct o; try exact Hiff; subst w'.
    + rewrite (write_op_eq _ t0) by done. apply set_value; [done|]. intros st Hst. destruct (gd_st w G t0 st Hst) as [Hty W]. cbn [write_fun]. rewrite Hty, Nat.eqb_refl.
      destruct (ss_exist (st_set st) id0) eqn:Ex.
      * apply exist_pos in Ex as [j Hj]. rewrite (get_unchecked_wf _ _ _ W Hj). by exists j.
      * by apply exist_none.
    + rewrite (write_op_eq _ t0) by done. apply set_value; [done|]. intros st Hst. destruct (gd_st w G t0 st Hst) as [Hty W]. cbn [write_fun]. rewrite Hty, Nat.eqb_refl.
      rewrite (get_loc_wf _ _ W). destruct (ss_get_index (st_set st) id0) as [j|] eqn:Hj; [by exists j|]. cbn. unfold ss_lookup. by rewrite Hj.
    + cbn [step]. unfold fmapM, resource_write, bind, get, ret, ub, put. destruct (w_res w !! r) as [y|]; [|done]. by destruct (_ =? _).
Qed.
End values.

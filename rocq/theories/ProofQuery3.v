(** Opening and running queries. *)
From stdpp Require Import prelude list gmap.
From Verif Require Import Base Api ModelSparse ModelEntity ModelGroup ModelWorld ModelQuery
  Spec ProofSparse ProofEntity ProofGroup ProofWorld ProofOps ProofOps2 ProofQuery ProofQuery2.

Section query.
Context {V : Type}.
Notation world := (world V).
Notation storage := (storage V).
Implicit Types (w : world) (aw : aworld V) (J : qiter V).

(** The item of a query for an entity, as locations. *)
Fixpoint q_item w aw (q : query) (id : nat) : option item :=
  match q with
  | QRef m t => IRef m t <$> loc w t id
  | Q2 a b => get2 (q_item w aw a) (q_item w aw b) id
  | Q3 a b c => get3 (q_item w aw a) (q_item w aw b) (q_item w aw c) id
  | Q4 a b c d => get4 (q_item w aw a) (q_item w aw b) (q_item w aw c) (q_item w aw d) id
  | Q5 a b c d e => get5 (q_item w aw a) (q_item w aw b) (q_item w aw c) (q_item w aw d) (q_item w aw e) id
  | QWithoutL a b => get_not (q_item w aw a) (q_item w aw b) id
  | QWithoutR a b => get_not (q_item w aw b) (q_item w aw a) id
  | QGroup k ma mb a b =>
      match k with
      | KNon => match find_agroup aw KNon a b with
                | Some g => if decide (id ∈ ag_mem g) then pair_loc w ma mb a b id else None
                | None => None
                end
      | _ => pair_loc w ma mb a b id
      end
  end.

(** locations and values *)
Lemma loc_comp w aw t id : R w aw ->
  match loc w t id with
  | Some i => deref_loc w t i = comp aw t id /\ is_Some (comp aw t id)
  | None => comp aw t id = None
  end.
Proof.
  intros H. unfold loc, deref_loc, comp. pose proof (R_st _ _ H t) as S.
  destruct (w_comps w !! t) as [st|], (a_comps aw !! t) as [m|]; try done; simpl.
  destruct S as [_ Rt]. pose proof (rep_lookup _ _ _ Rt id) as L. unfold ss_lookup in L.
  destruct (ss_get_index (st_set st) id) as [i|] eqn:Ei; [|done].
  split; [done|]. rewrite <- (rep_Some_pos _ _ _ id Rt). by rewrite Ei.
Qed.

Definition item_val w (oi : option item) (ov : option (vtree V)) : Prop :=
  match oi with Some it => deref w it = ov /\ is_Some ov | None => ov = None end.

Lemma pair_item w aw ma mb a b id : R w aw -> item_val w (pair_loc w ma mb a b id) (pair_get aw a b id).
Proof.
  intros H. unfold item_val, pair_loc, pair_get.
  pose proof (loc_comp w aw a id H) as La. pose proof (loc_comp w aw b id H) as Lb.
  destruct (loc w a id) as [i|].
  - destruct La as [Da [x Hx]]. rewrite Hx in *. destruct (loc w b id) as [j|].
    + destruct Lb as [Db [y Hy]]. rewrite Hy in *. simpl. rewrite Da, Db. simpl. split; [done|]. eauto.
    + by rewrite Lb.
  - by rewrite La.
Qed.

Lemma q_item_get w aw q id : R w aw -> item_val w (q_item w aw q id) (q_get aw q id).
Proof.
  intros H. induction q as [m t|a IHa b IHb|a IHa b IHb c IHc|a IHa b IHb c IHc d IHd|a IHa b IHb c IHc d IHd e IHe
    |a IHa b IHb|a IHa b IHb|k ma mb a b]; simpl.
  - pose proof (loc_comp w aw t id H) as L. destruct (loc w t id) as [i|]; simpl.
    + destruct L as [D [x Hx]]. rewrite Hx in *. rewrite D. simpl. eauto.
    + by rewrite L.
  - unfold get2. unfold item_val in *. destruct (q_item w aw a id).
    + destruct IHa as [Da [x Hx]]. rewrite Hx in *. destruct (q_item w aw b id).
      * destruct IHb as [Db [y Hy]]. rewrite Hy in *. simpl. rewrite Da, Db. eauto.
      * by rewrite IHb.
    + by rewrite IHa.
  - unfold get3. unfold item_val in *. destruct (q_item w aw a id).
    + destruct IHa as [Da [x Hx]]. rewrite Hx in *. destruct (q_item w aw b id).
      * destruct IHb as [Db [y Hy]]. rewrite Hy in *. destruct (q_item w aw c id).
        -- destruct IHc as [Dc [z Hz]]. rewrite Hz in *. simpl. rewrite Da, Db, Dc. eauto.
        -- by rewrite IHc.
      * by rewrite IHb.
    + by rewrite IHa.
  - unfold get4. unfold item_val in *. destruct (q_item w aw a id).
    + destruct IHa as [Da [x Hx]]. rewrite Hx in *. destruct (q_item w aw b id).
      * destruct IHb as [Db [y Hy]]. rewrite Hy in *. destruct (q_item w aw c id).
        -- destruct IHc as [Dc [z Hz]]. rewrite Hz in *. destruct (q_item w aw d id).
           ++ destruct IHd as [Dd [u Hu]]. rewrite Hu in *. simpl. rewrite Da, Db, Dc, Dd. eauto.
           ++ by rewrite IHd.
        -- by rewrite IHc.
      * by rewrite IHb.
    + by rewrite IHa.
  - unfold get5. unfold item_val in *. destruct (q_item w aw a id).
    + destruct IHa as [Da [x Hx]]. rewrite Hx in *. destruct (q_item w aw b id).
      * destruct IHb as [Db [y Hy]]. rewrite Hy in *. destruct (q_item w aw c id).
        -- destruct IHc as [Dc [z Hz]]. rewrite Hz in *. destruct (q_item w aw d id).
           ++ destruct IHd as [Dd [u Hu]]. rewrite Hu in *. destruct (q_item w aw e id).
              ** destruct IHe as [De [v Hv]]. rewrite Hv in *. simpl. rewrite Da, Db, Dc, Dd, De. eauto.
              ** by rewrite IHe.
           ++ by rewrite IHd.
        -- by rewrite IHc.
      * by rewrite IHb.
    + by rewrite IHa.
  - unfold get_not. unfold item_val in *. destruct (q_item w aw a id).
    + destruct IHa as [Da [x Hx]]. by rewrite Hx.
    + by rewrite IHa.
  - unfold get_not. unfold item_val in *. destruct (q_item w aw b id).
    + destruct IHb as [Db [x Hx]]. by rewrite Hx.
    + by rewrite IHb.
  - destruct k; [by apply pair_item|by apply pair_item|]. destruct (find_agroup aw KNon a b) as [g|]; [|done].
    case_decide; [by apply pair_item|done].
Qed.
Lemma q_item_is_Some w aw q id : R w aw -> is_Some (q_item w aw q id) <-> is_Some (q_get aw q id).
Proof.
  intros H. pose proof (q_item_get w aw q id H) as I. unfold item_val in I.
  destruct (q_item w aw q id); [|rewrite I; split; by intros [? ?]]. destruct I as [_ I]. split; [done|by eauto].
Qed.
Lemma q_item_None w aw q id : R w aw -> q_item w aw q id = None <-> q_get aw q id = None.
Proof. intros H. rewrite !eq_None_not_Some. by rewrite (q_item_is_Some w aw q id H). Qed.

(** ** find_group *)
Lemma find_group_spec (cs : gmap nat storage) gs ags k a b n : Forall2 (gok cs) gs ags ->
  match find_group (new_group k a b) gs n with
  | Some i => exists j g (ag : agroup), i = n + j /\ gs !! j = Some g /\ ags !! j = Some ag /\
      List.find (ag_same k a b) ags = Some ag /\ gok cs g ag /\ ag_same k a b ag = true
  | None => List.find (ag_same k a b) ags = None
  end.
Proof.
  intros F. revert n. induction F as [|g ag gs ags Hg F IH]; intros n; [done|]. simpl.
  rewrite (gstat_same g ag k a b (gok_stat _ _ _ Hg)). destruct (ag_same k a b ag) eqn:E.
  - exists 0, g, ag. split; [lia|]. done.
  - specialize (IH (S n)). destruct (find_group (new_group k a b) gs (S n)) as [i|]; [|done].
    destruct IH as (j & g' & ag' & -> & H). exists (S j), g', ag'. split; [lia|]. done.
Qed.
Lemma ag_same_inv k a b ag : ag_same k a b ag = true -> ag_kind ag = k /\ ag_a ag = a /\ ag_b ag = b.
Proof.
  unfold ag_same. destruct k, (ag_kind ag); try done; intros H; apply andb_true_iff in H as [H1 H2];
  apply Nat.eqb_eq in H1, H2; done.
Qed.
Lemma find_existsb {A} (f : A -> bool) l : existsb f l = match List.find f l with Some _ => true | None => false end.
Proof. induction l as [|x l IH]; [done|]. simpl. destruct (f x); done. Qed.

(** ** The order in which entities are visited *)
Definition t_order w (t : nat) : list nat :=
  match w_comps w !! t with Some st => entities (st_set st) | None => [] end.
Definition g_order w (g : group) : list nat :=
  match g with
  | GFull d => take (fd_len d) (t_order w (fd_a d))
  | GPart d => take (pd_len d) (t_order w (pd_a d))
  | GNon d => entities (nd_set d)
  end.
Fixpoint q_list w aw (q : query) : list nat :=
  match q with
  | QRef _ t => t_order w t
  | Q2 a _ | Q3 a _ _ | Q4 a _ _ _ | Q5 a _ _ _ _ | QWithoutR a _ =>
      filter (fun id => q_visits aw q id = true) (q_list w aw a)
  | QWithoutL _ b => filter (fun id => q_visits aw q id = true) (q_list w aw b)
  | QGroup k _ _ a b =>
      match find_group (new_group k a b) (w_groups w) 0 ≫= (w_groups w !!.) with
      | Some g => g_order w g
      | None => []
      end
  end.
(** [size_hint] is exact for single references and groups, absent for the rest *)
Definition q_sized (q : query) : bool :=
  match q with QRef _ _ | QGroup _ _ _ _ _ => true | _ => false end.

(** ** Group iterators *)
Lemma group_iter_ok w aw k ma mb a b gi g ag : R w aw ->
  w_groups w !! gi = Some g -> gok (w_comps w) g ag -> ag_same k a b ag = true ->
  find_agroup aw k a b = Some ag -> q_fresh aw (QGroup k ma mb a b) = true ->
  exists J l, (match k with
      | KFull => ret (iter_full ma mb a b (g_len g))
      | KPart => ret (iter_part ma mb a b (g_len g))
      | KNon => match g with GNon _ => ret (iter_non ma mb a b gi) | _ => panic end
      end : M held (qiter V)) = ret J /\
    iter_ok true w J (q_item w aw (QGroup k ma mb a b)) l /\
    l.*1 = g_order w g /\ forall id, id ∈ l.*1 <-> id ∈ ag_mem ag.
Proof.
  intros H Hgi [Hs Ne (sa & sb & Ha & Hb & Hd)] Hsame Hfind Hfr.
  apply ag_same_inv in Hsame as (K & EA & EB). rewrite EA in Ha. rewrite EB in Hb.
  assert (ss_wf (st_set sa)) as Wa by (destruct (srel_Some_r _ _ _ _ _ (R_st _ _ H) Ha) as (? & _ & _ & []); done).
  assert (ss_wf (st_set sb)) as Wb by (destruct (srel_Some_r _ _ _ _ _ (R_st _ _ H) Hb) as (? & _ & _ & []); done).
  destruct g as [d|d|d]; simpl in Hs; destruct Hs as (K' & EA' & _); rewrite K in K'; subst k; simpl in Hd.
  - eexists _, _. split; [reflexivity|]. split; [by eapply iter_full_ok|].
    unfold full_items. rewrite imap_fst by done. split; [simpl; unfold t_order; rewrite <- EA', EA; by rewrite Ha|].
    intros id. destruct Hd as (_ & _ & _ & Hm). rewrite Hm. by rewrite elem_of_list_to_set.
  - eexists _, _. split; [reflexivity|]. split; [by eapply iter_part_ok|].
    unfold part_items. rewrite imap_fst by done. split; [simpl; unfold t_order; rewrite <- EA', EA; by rewrite Ha|].
    intros id. destruct Hd as (_ & Hm & _). rewrite Hm. by rewrite elem_of_list_to_set.
  - simpl in Hfr. rewrite Hfind in Hfr. rewrite Hfr in Hd.
    eexists _, _. split; [reflexivity|]. simpl. rewrite Hfind. split; [by eapply iter_non_ok|].
    destruct Hd as (Wg & Hm & _). unfold non_items.
    rewrite fmap_zip_with_l; [|done|by rewrite (wf_len _ Wg)]. split; [done|]. intros id. by rewrite Hm.
Qed.

(** ** Opening *)
Lemma downcast_ok w aw t (h : held) : R w aw -> registered aw t -> downcast w t h = (Ret tt, h).
Proof.
  intros H [m Hm]. destruct (srel_Some _ _ _ _ _ (R_st _ _ H) Hm) as (st & Hst & Ty & _).
  unfold downcast. by rewrite Hst, Ty, Nat.eqb_refl.
Qed.

Definition open_post w aw q (r : outcome (qiter V) * held) rest (spec : outcome unit) : Prop :=
  match r with
  | (Ret J, h') => spec = open_reqs aw rest h' /\
      exists l, iter_ok (q_sized q) w J (q_item w aw q) l /\ l.*1 = q_list w aw q /\
        forall id, id ∈ l.*1 <-> q_visits aw q id = true
  | (Panic, _) => spec = Panic
  | (Block, _) => spec = Block
  | (UB, _) => False
  end.

Lemma andb_bd (b : bool) (P : Prop) `{Decision P} : b && bool_decide P = true <-> b = true /\ P.
Proof. rewrite andb_true_iff. by rewrite bool_decide_eq_true. Qed.

(** sequencing two opens *)
Lemma open_bind w aw q0 q (mA : M held (qiter V)) (k : qiter V -> M held (qiter V)) rest restA h spec :
  open_post w aw q0 (mA h) restA spec ->
  (forall JA h' la, iter_ok (q_sized q0) w JA (q_item w aw q0) la -> la.*1 = q_list w aw q0 -> (forall id, id ∈ la.*1 <-> q_visits aw q0 id = true) ->
     open_post w aw q (k JA h') rest (open_reqs aw restA h')) ->
  open_post w aw q (bind mA k h) rest spec.
Proof.
  intros HA Hk. unfold bind. destruct (mA h) as [[J| | |] h']; simpl in HA; try done.
  destruct HA as (-> & l & Hok & Hl & Hv). by eapply Hk.
Qed.

Lemma query_open_ok w aw q rest h : R w aw -> q_fresh aw q = true ->
  open_post w aw q (query_open w q h) rest (open_reqs aw (q_reqs q ++ rest) h).
Proof.
  intros H. revert rest h.
  induction q as [m t|a IHa b IHb|a IHa b IHb c IHc|a IHa b IHb c IHc d IHd|a IHa b IHb c IHc d IHd e IHe
    |a IHa b IHb|a IHa b IHb|k ma mb a b]; intros rest h Hf; cbn [query_open q_reqs].
  - rewrite (has_registered_spec w aw t (R_st _ _ H)). simpl. case_decide as C.
    2:{ rewrite bind_assert_false by (by apply bool_decide_eq_false). done. }
    rewrite bind_assert_true by (by apply bool_decide_eq_true).
    unfold lock. unfold bind at 1. unfold bind at 1. cbn [get]. unfold lock_conflict.
    destruct (existsb _ h); [done|]. cbn [put].
    rewrite (bind_ret _ _ _ _ _ (downcast_ok w aw t _ H C)). simpl. split; [done|].
    destruct C as [mm Hm]. destruct (srel_Some _ _ _ _ _ (R_st _ _ H) Hm) as (st & Hst & Ty & Rt).
    exists (ref_items m t (entities (st_set st))). split; [apply iter_ref_ok; [done|apply Rt]|].
    split; [unfold ref_items, t_order; rewrite imap_fst by done; by rewrite Hst|].
    intros id. unfold ref_items. rewrite imap_fst by done. rewrite bool_decide_eq_true.
    rewrite (rep_elem _ _ _ _ Rt). unfold has, comp. by rewrite Hm.
  - simpl in Hf. apply andb_true_iff in Hf as [Hfa Hfb]. rewrite <- app_assoc.
    eapply open_bind; [by apply IHa|]. intros JA h1 la OA LA VA.
    eapply open_bind; [by apply IHb|]. intros JB h2 lb OB LB VB.
    cbn [ret open_post q_item]. split; [done|]. eexists. split; [by eapply with2_ok|]. apply keep_both; [done|]. cbn [q_visits q_item].
    intros id. rewrite keep_fst. rewrite VA, andb_bd, <- (q_item_is_Some w aw b id H).
    split; intros [H1 H2]; (split; [done|]); unfold get2 in *.
    + destruct (q_item w aw a id); [|by destruct H2]. destruct (q_item w aw b id); [eauto|by destruct H2].
    + apply VA in H1. apply elem_of_list_fmap in H1 as ([id' it] & -> & Hin). simpl in *. rewrite (io_get _ _ _ _ _ OA _ _ Hin).
      destruct H2 as [? ->]. eauto.
  - simpl in Hf. rewrite !andb_true_iff in Hf. destruct Hf as [[Hfa Hfb] Hfc]. rewrite <- !app_assoc.
    eapply open_bind; [by apply IHa|]. intros JA h1 la OA LA VA.
    eapply open_bind; [by apply IHb|]. intros JB h2 lb OB LB VB.
    eapply open_bind; [by apply IHc|]. intros JC h3 lc OC LC VC.
    cbn [ret open_post q_item]. split; [done|]. eexists. split; [by eapply with3_ok|]. apply keep_both; [done|]. cbn [q_visits q_item].
    intros id. rewrite keep_fst. rewrite VA, !andb_bd, <- !(q_item_is_Some w aw _ id H).
    split.
    + intros [H1 H2]. unfold get3 in H2.
      destruct (q_item w aw a id); [|by destruct H2]. destruct (q_item w aw b id); [|by destruct H2].
      destruct (q_item w aw c id); [eauto|by destruct H2].
    + intros [[H1 [? H2]] [? H3]]. split; [done|]. apply VA in H1.
      apply elem_of_list_fmap in H1 as ([id' it] & -> & Hin). unfold get3. simpl in *. rewrite (io_get _ _ _ _ _ OA _ _ Hin). simpl in *.
      rewrite H2, H3. eauto.
  - simpl in Hf. rewrite !andb_true_iff in Hf. destruct Hf as [[[Hfa Hfb] Hfc] Hfd]. rewrite <- !app_assoc.
    eapply open_bind; [by apply IHa|]. intros JA h1 la OA LA VA.
    eapply open_bind; [by apply IHb|]. intros JB h2 lb OB LB VB.
    eapply open_bind; [by apply IHc|]. intros JC h3 lc OC LC VC.
    eapply open_bind; [by apply IHd|]. intros JD h4 ld OD LD VD.
    cbn [ret open_post q_item]. split; [done|]. eexists. split; [by eapply with4_ok|]. apply keep_both; [done|]. cbn [q_visits q_item].
    intros id. rewrite keep_fst. rewrite VA, !andb_bd, <- !(q_item_is_Some w aw _ id H).
    split.
    + intros [H1 H2]. unfold get4 in H2.
      destruct (q_item w aw a id); [|by destruct H2]. destruct (q_item w aw b id); [|by destruct H2].
      destruct (q_item w aw c id); [|by destruct H2]. destruct (q_item w aw d id); [eauto|by destruct H2].
    + intros [[[H1 [? H2]] [? H3]] [? H4]]. split; [done|]. apply VA in H1.
      apply elem_of_list_fmap in H1 as ([id' it] & -> & Hin). unfold get4. simpl in *. rewrite (io_get _ _ _ _ _ OA _ _ Hin). simpl in *.
      rewrite H2, H3, H4. eauto.
  - simpl in Hf. rewrite !andb_true_iff in Hf. destruct Hf as [[[[Hfa Hfb] Hfc] Hfd] Hfe]. rewrite <- !app_assoc.
    eapply open_bind; [by apply IHa|]. intros JA h1 la OA LA VA.
    eapply open_bind; [by apply IHb|]. intros JB h2 lb OB LB VB.
    eapply open_bind; [by apply IHc|]. intros JC h3 lc OC LC VC.
    eapply open_bind; [by apply IHd|]. intros JD h4 ld OD LD VD.
    eapply open_bind; [by apply IHe|]. intros JE h5 le OE LE VE.
    cbn [ret open_post q_item]. split; [done|]. eexists. split; [by eapply with5_ok|]. apply keep_both; [done|]. cbn [q_visits q_item].
    intros id. rewrite keep_fst. rewrite VA, !andb_bd, <- !(q_item_is_Some w aw _ id H).
    split.
    + intros [H1 H2]. unfold get5 in H2.
      destruct (q_item w aw a id); [|by destruct H2]. destruct (q_item w aw b id); [|by destruct H2].
      destruct (q_item w aw c id); [|by destruct H2]. destruct (q_item w aw d id); [|by destruct H2].
      destruct (q_item w aw e id); [eauto|by destruct H2].
    + intros [[[[H1 [? H2]] [? H3]] [? H4]] [? H5]]. split; [done|]. apply VA in H1.
      apply elem_of_list_fmap in H1 as ([id' it] & -> & Hin). unfold get5. simpl in *. rewrite (io_get _ _ _ _ _ OA _ _ Hin). simpl in *.
      rewrite H2, H3, H4, H5. eauto.
  - simpl in Hf. apply andb_true_iff in Hf as [Hfa Hfb]. rewrite <- app_assoc.
    eapply open_bind; [by apply IHa|]. intros JA h1 la OA LA VA.
    eapply open_bind; [by apply IHb|]. intros JB h2 lb OB LB VB.
    cbn [ret open_post q_item]. split; [done|]. eexists. split; [by eapply without_left_ok|]. apply keep_both; [done|]. cbn [q_visits q_item].
    intros id. rewrite keep_fst. rewrite VB, andb_bd, <- (q_item_None w aw a id H). unfold get_not.
    split; intros [H1 H2]; (split; [done|]).
    + destruct (q_item w aw a id); [by destruct H2|done].
    + rewrite H2. apply VB in H1. apply elem_of_list_fmap in H1 as ([id' it] & -> & Hin).
      simpl in *. rewrite (io_get _ _ _ _ _ OB _ _ Hin). eauto.
  - simpl in Hf. apply andb_true_iff in Hf as [Hfa Hfb]. rewrite <- app_assoc.
    eapply open_bind; [by apply IHa|]. intros JA h1 la OA LA VA.
    eapply open_bind; [by apply IHb|]. intros JB h2 lb OB LB VB.
    cbn [ret open_post q_item]. split; [done|]. eexists. split; [by eapply without_right_ok|]. apply keep_both; [done|]. cbn [q_visits q_item].
    intros id. rewrite keep_fst. rewrite VA, andb_bd, <- (q_item_None w aw b id H). unfold get_not.
    split; intros [H1 H2]; (split; [done|]).
    + destruct (q_item w aw b id); [by destruct H2|done].
    + rewrite H2. apply VA in H1. apply elem_of_list_fmap in H1 as ([id' it] & -> & Hin).
      simpl in *. rewrite (io_get _ _ _ _ _ OA _ _ Hin). eauto.
  - rewrite !(has_registered_spec w aw _ (R_st _ _ H)). cbn [app open_reqs].
    case_decide as Ca; [|rewrite bind_assert_false; [done|rewrite (bool_decide_eq_false_2 _ Ca); done]].
    case_decide as Cb; [|rewrite bind_assert_false; [done|rewrite (bool_decide_eq_false_2 _ Cb); apply andb_false_r]].
    rewrite bind_assert_true by (by rewrite !bool_decide_eq_true_2).
    unfold lock at 1. unfold bind at 1. unfold bind at 1. cbn [get]. unfold lock_conflict.
    destruct (existsb _ h); [done|]. cbn [put].
    unfold lock at 1. unfold bind at 1. unfold bind at 1. cbn [get]. unfold lock_conflict.
    destruct (existsb _ ((a, ma) :: h)); [done|]. cbn [put].
    rewrite (bind_ret _ _ _ _ _ (downcast_ok w aw a _ H Ca)).
    rewrite (bind_ret _ _ _ _ _ (downcast_ok w aw b _ H Cb)).
    rewrite (has_group_spec w aw k a b H).
    destruct (existsb (ag_same k a b) (a_groups aw)) eqn:Ex.
    2:{ rewrite bind_assert_false by done. done. }
    rewrite bind_assert_true by done.
    rewrite find_existsb in Ex. destruct (List.find (ag_same k a b) (a_groups aw)) as [ag0|] eqn:Ef; [|done].
    pose proof (find_group_spec (w_comps w) (w_groups w) (a_groups aw) k a b 0 (R_gr _ _ H)) as Fg.
    destruct (find_group (new_group k a b) (w_groups w) 0) as [gi|] eqn:EFg; [|congruence].
    destruct Fg as (j & g & ag & -> & Hg & Hag & Hfind & Hok & Hsame). simpl.
    rewrite bind_retv. rewrite Hg. cbn [unwrap]. rewrite bind_retv.
    destruct (group_iter_ok w aw k ma mb a b j g ag H Hg Hok Hsame Hfind Hf) as (J & l & EJ & OJ & LJ & VJ).
    rewrite EJ. simpl. split; [done|]. exists l. split; [done|]. split; [by rewrite EFg; simpl; rewrite Hg|].
    unfold find_agroup. rewrite Hfind. intros id. rewrite VJ. by rewrite bool_decide_eq_true.
Qed.

(** ** Collecting *)
Lemma collect_spec w J get l (Rst : qi_st J -> list (nat * item) -> Prop) vs :
  (forall st l, Rst st l -> match l with
       | [] => exists st', qi_next_id J w st = (Ret None, st') /\ Rst st' []
       | x :: l' => exists st', qi_next_id J w st = (Ret (Some x), st') /\ Rst st' l'
       end) ->
  Forall2 (fun (x : nat * item) (y : nat * vtree V) => y.1 = x.1 /\ get x.1 = Some x.2 /\ deref w x.2 = Some y.2) l vs ->
  forall fuel st, Rst st l -> length l < fuel -> collect fuel w J st = Ret vs.
Proof.
  intros Hn F. induction F as [|[id it] [id' v] l vs (E1 & _ & E2) F IH]; intros fuel st Hst Hf;
    (destruct fuel as [|fuel]; [simpl in Hf; lia|]); cbn [collect]; pose proof (Hn _ _ Hst) as N.
  - destruct N as (st' & -> & _). done.
  - destruct N as (st' & -> & Hst'). simpl in E1, E2. subst id'. rewrite E2.
    rewrite (IH fuel st' Hst') by (simpl in Hf; lia). done.
Qed.

(** the values behind the items yielded *)
Lemma items_values sz w aw q J l : R w aw -> iter_ok sz w J (q_item w aw q) l ->
  (forall id, id ∈ l.*1 <-> q_visits aw q id = true) ->
  exists vs, Forall2 (fun (x : nat * item) (y : nat * vtree V) => y.1 = x.1 /\ q_item w aw q x.1 = Some x.2 /\ deref w x.2 = Some y.2) l vs /\
    q_result aw q vs.
Proof.
  intros H OK Vis. pose proof OK as [ND Gt _].
  set (vs := omap (fun x : nat * item => (fun v => (x.1, v)) <$> deref w x.2) l).
  assert (forall x, x ∈ l -> exists v, deref w x.2 = Some v /\ q_get aw q x.1 = Some v) as Hd.
  { intros [id it] Hin. pose proof (q_item_get w aw q id H) as I. rewrite (Gt _ _ Hin) in I. simpl in *.
    destruct I as [I [v Hv]]. exists v. rewrite Hv in I. done. }
  assert (Forall2 (fun (x : nat * item) (y : nat * vtree V) => y.1 = x.1 /\ q_item w aw q x.1 = Some x.2 /\ deref w x.2 = Some y.2) l vs) as F.
  { assert (forall x, x ∈ l -> q_item w aw q x.1 = Some x.2) as Gt' by (intros [id it]; apply Gt).
    unfold vs. clear -Hd Gt'. induction l as [|x l IH]; [constructor|]. simpl.
    destruct (Hd x (elem_of_list_here _ _)) as (v & Ev & _). rewrite Ev. simpl. constructor.
    - split; [done|]. split; [apply Gt'; left|done].
    - apply IH; intros y Hy; [apply Hd|apply Gt']; by right. }
  exists vs. split; [exact F|].
  assert (vs.*1 = l.*1) as Efst.
  { clear -F. induction F as [|x y l vs (E & _) F IH]; [done|]. cbn [fmap list_fmap]. by f_equal. }
  split; [by rewrite Efst|]. intros id v. split.
  + intros Hin. apply elem_of_list_omap in Hin as (x & Hx & E).
    destruct (Hd x Hx) as (v' & Ev & Gv). rewrite Ev in E. injection E as <- <-. split; [|done].
    apply Vis. apply elem_of_list_fmap. by exists x.
  + intros [Hv Hg]. apply Vis in Hv. apply elem_of_list_fmap in Hv as ([id' it] & -> & Hin).
    apply elem_of_list_omap. exists (id', it). split; [done|].
    destruct (Hd _ Hin) as (v' & Ev & Gv). simpl in *. rewrite Ev. simpl. congruence.
Qed.

Lemma run_query_spec w aw q : R w aw -> q_fresh aw q = true ->
  match a_open aw q with
  | Ret _ => exists l, run_query w q = Ret l /\ q_result aw q l
  | Panic => run_query w q = Panic
  | UB => False
  | Block => run_query w q = Block
  end.
Proof.
  intros H Hf. pose proof (query_open_ok w aw q [] [] H Hf) as O. rewrite app_nil_r in O.
  unfold a_open. unfold run_query. destruct (query_open w q []) as [[J| | |] h']; simpl in O.
  2:{ by rewrite O. } 2:{ done. } 2:{ by rewrite O. }
  destruct O as (-> & l & OK & Ord & Vis). pose proof OK as [ND Gt (Rst & R0 & Run)].
  destruct (items_values _ w aw q J l H OK Vis) as (vs & F & Hvs).
  exists vs. split; [|done].
  eapply (collect_spec w J (q_item w aw q) l Rst vs); [|exact F|done|].
  - intros st l0 H0. apply (Run w (shape_refl w) st l0 H0).
  - pose proof (Run w (shape_refl w) _ _ R0) as (_ & _ & _ & Hlen & _). lia.
Qed.

End query.

(** C58: values and ids when calls are broken off. *)
From stdpp Require Import prelude list gmap.
From Verif Require Import PropConc SpecValue SpecValue2 ProofValue ProofValue3 PropValue PropValue2.
From Verif Require Import Base Api ModelSparse ModelEntity ModelGroup ModelWorld ModelQuery ModelStep ModelConc SpecConc ModelLife
  Spec History Rules ProofSparse ProofEntity ProofGroup ProofWorld ProofMain ProofHistory ProofWf ProofTerm ProofConc ProofConc2 ProofConc3 ProofConc4 ProofConc5
  ProofConc6 ProofConc7 ProofConc8 ProofConc9 ProofConc10 ProofConc11 ProofEm
  ProofQueryMut ProofQuery3 ProofQuery4 SpecLoose ProofLoose ProofLoose2 PropEntity PropComp PropWorld PropQuery PropSafe PropLoose PropLooseEnt SpecLife PropLife PropLife2
  ModelBreak SpecBreak PropBreak.

Section breaks.
Context {V : Type}.
Implicit Types (s : ModelLife.life V) (bs : list (baction V)) (w : world V) (b : baction V).

(** ** No value is duplicated or made up *)
Lemma programs_app bs1 bs2 : programs (V := V) (bs1 ++ bs2) = programs bs1 ++ programs bs2.
Proof. induction bs1 as [|[[]|] bs1 IH]; cbn [app programs]; try done; by rewrite IH. Qed.
Lemma half_held t j id w : ProofValue.held t (half_kill (V := V) j id w).2 ⊆+ ProofValue.held t w.
Proof.
  pose proof (smaller_closed (V := V)) as Hc. pose proof (smaller_perm (V := V)) as Hp.
  assert (holds (wP (smaller w)) (half_kill (V := V) j id)) as H; [|exact (H w (smaller_refl w) t)].
  unfold half_kill. apply holds_group; intros a b'.
  - apply holds_bind; [by apply holds_full_remove|intros _]. apply holds_on_a; by apply holds_cs_remove.
  - apply holds_bind; [by apply holds_part_remove|intros _]. apply holds_on_a; by apply holds_cs_remove.
Qed.
Lemma step_all t o w R G : in_place o = false -> ProofValue.held (V := V) t w ++ R ⊆+ G ->
  ProofValue.held t (step o w).2 ++ R ++ returned t (o, tells w o) ⊆+ G ++ given t (o, tells w o).
Proof.
  intros Ho Hsub. unfold tells.
  assert (exists lost, ProofValue.held t (step o w).2 ++ returned t (o, (step o w).1) ++ lost ≡ₚ ProofValue.held t w ++ given t (o, (step o w).1)) as [lost El].
  { assert ((exists id ord, o = RemoveEntity id ord) \/ (forall id ord, o <> RemoveEntity id ord)) as [(id & ord & ->)|Hr] by (destruct o; first [by right|left; by do 2 eexists]).
    2: { destruct (ProofValue.step_values o w t Ho) as (lost & El & _); [done|by exists lost]. }
    destruct (submseteq_Permutation _ _ (remove_entity_values id ord w t)) as [lost El]. exists lost. cbn. by rewrite app_nil_r. }
  revert Hsub El. generalize (given t (o, (step o w).1)), (returned t (o, (step o w).1)), (ProofValue.held t (step o w).2), (ProofValue.held t w).
  intros g r h2 h1 Hsub El. transitivity ((h1 ++ R) ++ g); [|by apply submseteq_app].
  rewrite (Permutation_app_comm R r), <- (app_assoc h1), (Permutation_app_comm R g), (app_assoc h1 g), <- El, <- !app_assoc. apply submseteq_skips_l, submseteq_skips_l.
  apply submseteq_inserts_l. done.
Qed.
Lemma broken_values t bs hands s : Forall2 (honest t) hands (programs bs) -> Forall (fun ev => in_place ev.1 = false) (exclusivesb bs born) ->
  livedb bs born = Some s ->
  exists Hs, Forall2 (tacc t) Hs (lf_users s) /\
    ProofValue.held t (lf_world s) ++ concat Hs ++ all_returned t (exclusivesb bs born) ⊆+ all_given t (exclusivesb bs born) ++ concat hands.
Proof.
  revert hands s. induction bs as [|b bs IH] using rev_ind; intros hands s Hh Hp H.
  - injection H as <-. exists []. split; [constructor|]. cbn. apply submseteq_nil_l.
  - apply livedb_snoc in H as (s1 & H1 & E). rewrite (exclusivesb_snoc bs b born s1 s H1 E) in *. rewrite programs_app in Hh. apply Forall_app in Hp as [Hp Ha].
    apply Forall2_app_inv_r in Hh as (hands1 & hands2 & Hh1 & Hh2 & ->). destruct (IH hands1 s1 Hh1 Hp H1) as (Hs & Hf & Hsub). rewrite concat_app.
    destruct b as [[cl|i|o]|half i h e cl]; cbn [programs] in Hh2; rewrite ?app_nil_r; cbn [act1b act1] in E.
    + apply Forall2_cons_inv_r in Hh2 as (h & hs & Hcl & Hn & ->). apply Forall2_nil_inv_r in Hn as ->. injection E as <-. cbn [lf_world lf_users concat].
      exists (Hs ++ [h]). split; [apply Forall2_app; [done|]; constructor; [|constructor]; unfold tacc; cbn [th_prog]; by apply acc_compile|].
      rewrite concat_app. cbn [concat]. rewrite !app_nil_r.
      rewrite (Permutation_app_comm (concat Hs) h), <- !app_assoc, (Permutation_app_swap_app (ProofValue.held t _) h), (Permutation_app_comm (concat hands1) h), (Permutation_app_swap_app (all_given t _) h).
      by apply submseteq_app.
    + apply Forall2_nil_inv_r in Hh2 as ->. cbn [concat]. rewrite app_nil_r. destruct (cstep i (conf_of s1)) as [c'|] eqn:Ec; [|done].
      injection E as <-. destruct (cstep_hinv t (ProofValue.held t (lf_world s1) ++ concat Hs) (conf_of s1) i c') as (Hs' & Hf' & Hle); [by exists Hs|done|].
      exists Hs'. split; [done|]. cbn [lf_world]. etransitivity; [|exact Hsub]. rewrite !app_assoc. by apply submseteq_app.
    + apply Forall2_nil_inv_r in Hh2 as ->. cbn [concat]. rewrite app_nil_r. apply act_do in E as [-> _]. exists []. split; [constructor|]. cbn [lf_world concat app].
      rewrite all_returned_snoc, all_given_snoc. apply Forall_cons in Ha as [Ho _]. cbn [fst] in Ho.
      etransitivity; [apply (step_all t o (lf_world s1) _ (all_given t (exclusivesb bs born) ++ concat hands1) Ho)|].
      { etransitivity; [|exact Hsub]. apply submseteq_skips_l. by apply submseteq_inserts_l. }
      rewrite <- !app_assoc. apply submseteq_skips_l. by rewrite Permutation_app_comm.
    + apply Forall2_cons_inv_r in Hh2 as (hd & hs & Hcl & Hn & ->). apply Forall2_nil_inv_r in Hn as ->. cbn [concat]. rewrite app_nil_r.
      apply break_inv in E as (th & w' & Hi & _ & _ & _ & -> & Hw). cbn [lf_world lf_users].
      assert (ProofValue.held t w' ⊆+ ProofValue.held t (lf_world s1)) as Hle.
      { destruct half; [|by subst w']. destruct Hw as (j & id & B & f & k & _ & ->). apply half_held. }
      destruct (Forall2_lookup_r _ _ _ _ _ Hf Hi) as (a & Hsi & _).
      exists (<[i := hd]> Hs). split.
      { apply Forall2_insert; [done|]. unfold tacc. cbn [th_prog]. apply acc_rels. by apply acc_compile. }
      assert (concat (<[i:=hd]> Hs) ⊆+ concat Hs ++ hd) as Hc. { rewrite <- (concat_insert Hs i a hd Hsi). by apply submseteq_inserts_r. }
      transitivity (ProofValue.held t (lf_world s1) ++ (concat Hs ++ hd) ++ all_returned t (exclusivesb bs born)).
      { apply submseteq_app; [done|]. by apply submseteq_app. }
      rewrite <- (app_assoc (concat Hs)), (Permutation_app_comm hd), !app_assoc. apply submseteq_app; [|done]. by rewrite <- !app_assoc.
Qed.
(** Let every user give only values it has ([hands] says which it has when it
    enters, and when it goes on after being broken off), and no exclusive call
    change values in place.  At every moment the values stored, and those
    exclusive calls were given back, are together among those the exclusive
    calls gave and those the users had: a call broken off may lose values, it
    duplicates none. *)
Theorem C58_no_copies t bs hands s d : Forall2 (honest t) hands (programs bs) -> Forall (fun ev => in_place ev.1 = false) (exclusivesb bs born) ->
  livedb bs born = Some s -> stores (lf_world s) t d ->
  d ++ all_returned t (exclusivesb bs born) ⊆+ all_given t (exclusivesb bs born) ++ concat hands.
Proof.
  intros Hh Hp H Hd. apply stores_held in Hd as <-. destruct (broken_values t bs hands s Hh Hp H) as (Hs & _ & Hle).
  etransitivity; [|exact Hle]. apply submseteq_skips_l. by apply submseteq_inserts_l.
Qed.

(** ** Ids *)
Lemma deedsx_snoc bs b s0 s1 s' : livedb bs s0 = Some s1 -> act1b b s1 = Some s' ->
  deedsx (bs ++ [b]) s0 = deedsx bs s0 ++ match b with BAct a => deed s1 a | Break _ _ _ _ _ => [] end.
Proof.
  revert s0. induction bs as [|b' bs IH]; intros s0 H E; cbn [livedb deedsx app] in *.
  - injection H as ->. rewrite E. by rewrite app_nil_r.
  - destruct (act1b b' s0) as [s2|]; [|done]. rewrite (IH s2 H E). by rewrite app_assoc.
Qed.
Lemma neatx_snoc bs b : neatx (V := V) (bs ++ [b]) -> neatx bs /\ forall s a id, b = BAct a -> livedb bs born = Some s -> removes s a = Some id ->
  1 <= id /\ last (waiting (seen (deedsx bs born))) <> Some id.
Proof.
  intros H. split; [|intros s a id -> Hs; by apply (H bs a [] s id)]. intros pre a post s id ->. apply (H pre a (post ++ [b])). by rewrite <- app_assoc.
Qed.
Lemma broken_ids bs s : neatx bs -> livedb bs born = Some s -> ids_like (deedsx bs born) (lf_world s).
Proof.
  revert s. induction bs as [|b bs IH] using rev_ind; intros s N H.
  - injection H as <-. done.
  - apply neatx_snoc in N as [N Na]. apply livedb_snoc in H as (s1 & H1 & E). specialize (IH s1 N H1).
    rewrite (deedsx_snoc bs b born s1 s H1 E). destruct b as [a|half i h e cl].
    + apply act_ids; [exact (bi_c _ (life_binv bs s1 H1))|exact E|done|]. intros id. by apply (Na s1 a id).
    + rewrite app_nil_r. cbn [act1b] in E. apply break_inv in E as (th & w' & _ & _ & _ & _ & -> & Hw). cbn [lf_world].
      destruct half; [|by subst w']. destruct Hw as (j & id & B & f & k & _ & ->). destruct IH as (L & Hb & He). split; [done|]. split; [done|].
      rewrite <- He. unfold half_kill. apply ProofEm.keeps_group.
Qed.
(** C55 holds whatever is broken off: ids are as after the creations and
    removals that took effect.  An entity whose removal was broken off before
    its id was given free is still alive; ids are never handed out twice. *)
Theorem C58_ids bs s : neatx bs -> livedb bs born = Some s ->
  rules (deedsx bs born) /\
  forall o, (o = CreateEntity \/ (exists n, o = CreateEntities n) \/ exists id, o = Exist id) -> tells (lf_world s) o = answer (deedsx bs born) o.
Proof.
  intros N H. destruct (broken_ids bs s N H) as (L & _ & He). split; [done|]. intros o [->|[[n ->]|[id ->]]]; unfold tells, answer.
  - by apply create_same.
  - by apply creates_same.
  - cbn [step]. rewrite !bind_get, !fmapM_fst. unfold lift, exist. by rewrite He.
Qed.
Theorem C58_new_ids bs s : neatx bs -> livedb bs born = Some s ->
  (forall id, id ∈ alive (seen (deedsx bs born)) -> tells (lf_world s) (Exist id) = Ret (OBool true)) /\
  exists id, tells (lf_world s) CreateEntity = Ret (OId id) /\ id <> 0 /\ id ∉ alive (seen (deedsx bs born)).
Proof.
  intros N H. destruct (C58_ids bs s N H) as [L K]. split.
  - intros id Hid. rewrite K by (right; right; by eexists). by apply C12_exist_live.
  - destruct (C08_create_fresh _ L) as (id & H1 & H2 & H3 & _). exists id. rewrite K by (by left). done.
Qed.
End breaks.

(** ** Concrete cases *)
Definition neatxb (bs : list (baction nat)) : bool :=
  forallb (fun n => match bs !! n, livedb (take n bs) born with
    | Some (BAct a), Some s => match removes s a with
        | Some id => (1 <=? id) && negb (bool_decide (last (waiting (seen (deedsx (take n bs) born))) = Some id))
        | None => true end
    | _, _ => true end) (seq 0 (length bs)).
Lemma neatxb_ok bs : neatxb bs = true -> neatx bs.
Proof.
  intros H pre a post s id -> Hl Hr. pose proof (proj1 (forallb_forall _ _) H (length pre)) as K. cbv beta in K.
  rewrite list_lookup_middle, take_app, Hl, Hr in K by done. assert (1 <= id /\ last (waiting (seen (deedsx pre born))) <> Some id) as X; [|exact X].
  assert ((1 <=? id) && negb (bool_decide (last (waiting (seen (deedsx pre born))) = Some id)) = true) as Y.
  { apply K. apply in_seq. rewrite app_length. cbn [length]. lia. }
  apply andb_true_iff in Y as [Y1 Y2]. split; [by apply Nat.leb_le|]. by apply negb_true_iff, bool_decide_eq_false in Y2.
Qed.
(** The life of C58_case: the removal broken off did not take effect. *)
Example C58_ids_case : neatx bk_life /\ livedb bk_life born = Some (bk_at bk_life) /\ deedsx bk_life born = [CreateEntity; CreateEntity].
Proof. split; [apply neatxb_ok; vm_compute; reflexivity|]. split; [apply bk_at_ok; vm_compute; reflexivity|]. vm_compute. reflexivity. Qed.
(** The values of type 1: one was given, none is left. *)
Example C58_no_copies_case : Forall2 (honest 1) [[]; []] (programs bk_life) /\ Forall (fun ev => in_place ev.1 = false) (exclusivesb bk_life born) /\
  stores (lf_world (bk_at bk_before)) 1 [11] /\ stores (lf_world (bk_at bk_life)) 1 [] /\ all_given 1 (exclusivesb bk_life born) = [11].
Proof.
  split.
  { change (programs bk_life) with [Call (V := nat) (RemoveEntity 1 [1; 3; 2]) (fun _ => Done); Call CreateEntity (fun _ => Done)].
    repeat constructor; exists []; by split. }
  split. { apply Forall_forall. intros ev Hin. apply elem_of_list_In in Hin. revert ev Hin.
    assert (forallb (fun ev => negb (in_place ev.1)) (exclusivesb bk_life born) = true) as H by (vm_compute; reflexivity).
    intros ev Hin. rewrite forallb_forall in H. specialize (H ev Hin). by apply negb_true_iff. }
  split; [vm_compute; reflexivity|]. split; vm_compute; reflexivity.
Qed.

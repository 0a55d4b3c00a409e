(** C51: every value given to a world is in exactly one place: stored, handed
    back, or dropped.  Vocabulary: SpecValue.v. *)
From stdpp Require Import prelude list gmap.
From Verif Require Import Base Api ModelSparse ModelEntity ModelGroup ModelWorld ModelQuery ModelStep
  Spec History SpecValue Rules Samples ProofWorld ProofSparse ProofOps ProofOps2 ProofMain ProofHistory ProofConc4 ProofConc5 PropEntity PropComp ProofValue ProofValue2.

Section value.
Context {V : Type}.
Implicit Types (ops : list (op V)) (t id : nat) (v : V) (d : list V).

(** the storage of type [t] shows the values [d] *)
Definition shows ops t d : Prop := answer ops (StoreData t) = Ret (OData (Some d)).

Lemma shows_held ops t d : shows ops t d -> held t (after ops) = d.
Proof.
  unfold shows, answer. cbn [step]. rewrite fmap_fst. unfold via_storage, bind, get, lift, components_read, held, ret.
  destruct (w_comps (after ops) !! t) as [st|]; [|done]. destruct (st_ty st =? t); [|done]. cbn. by intros [= ->].
Qed.

Lemma all_given_snoc t (h : history V) ev : all_given t (h ++ [ev]) = all_given t h ++ given t ev.
Proof. unfold all_given. rewrite bind_app. f_equal. apply app_nil_r. Qed.
Lemma all_returned_snoc t (h : history V) ev : all_returned t (h ++ [ev]) = all_returned t h ++ returned t ev.
Proof. unfold all_returned. rewrite bind_app. f_equal. apply app_nil_r. Qed.
Lemma sum_snoc (g : history V -> event V -> list V) h0 h ev : sum_from g h0 (h ++ [ev]) = sum_from g h0 h ++ g (h0 ++ h) ev.
Proof.
  revert h0. induction h as [|x h IH]; intros h0; simpl; [by rewrite !app_nil_r|]. rewrite IH, <- !app_assoc. done.
Qed.

Lemma swap_mid (a b c d : list V) : (a ++ b) ++ (c ++ d) ≡ₚ (a ++ c) ++ (b ++ d).
Proof. rewrite <- !app_assoc. f_equiv. rewrite !app_assoc. f_equiv. apply Permutation_app_comm. Qed.

(** One call, made after any calls whatever, with no rules of use: nothing
    appears that was not there or given, and nothing disappears but values the
    call hands back and at most as many others as it was given (the value
    overwritten, or the value refused). *)
Theorem C51_one_call ops o t d d' : in_place o = false -> (forall id ord, o <> RemoveEntity id ord) ->
  shows ops t d -> shows (ops ++ [o]) t d' ->
  exists lost, d' ++ returned t (o, answer ops o) ++ lost ≡ₚ d ++ given t (o, answer ops o) /\
    length lost <= length (given t (o, answer ops o)).
Proof.
  intros Ho Hr Hd%shows_held Hd'%shows_held. subst. rewrite after_snoc. unfold answer. by apply step_values.
Qed.
(** Removing an entity only takes away. *)
Theorem C51_remove_entity ops id ord t d d' : shows ops t d -> shows (ops ++ [RemoveEntity id ord]) t d' -> d' ⊆+ d.
Proof. intros Hd%shows_held Hd'%shows_held. subst. rewrite after_snoc. apply remove_entity_values. Qed.
(** Changing values in place keeps their number. *)
Theorem C51_in_place ops q f t d d' : shows ops t d -> shows (ops ++ [QueryMut q f]) t d' -> length d' = length d.
Proof.
  intros Hd%shows_held Hd'%shows_held. subst. rewrite after_snoc. apply in_place_len.
Qed.

(** Over a whole history, with no rules of use (and no changes in place): what
    is stored and what was handed back are, together, among what was given:
    no value is duplicated or made up. *)
Theorem C51_no_copies ops t d : Forall (fun o => in_place o = false) ops -> shows ops t d ->
  d ++ all_returned t (seen ops) ⊆+ all_given t (seen ops).
Proof.
  intros Hp Hd%shows_held. subst. induction ops as [|o ops IH] using rev_ind; [done|].
  apply Forall_app in Hp as [Hp Ho]. apply Forall_cons in Ho as [Ho _]. specialize (IH Hp).
  rewrite after_snoc, seen_snoc, all_returned_snoc, all_given_snoc.
  assert (exists lost, held t (step o (after ops)).2 ++ returned t (o, answer ops o) ++ lost ≡ₚ held t (after ops) ++ given t (o, answer ops o)) as [lost E].
  { assert ((exists id ord, o = RemoveEntity id ord) \/ (forall id ord, o <> RemoveEntity id ord)) as [(id & ord & ->)|Hr] by (destruct o; first [by right|left; by do 2 eexists]).
    2: { destruct (step_values o (after ops) t Ho) as (lost & E & _); [done|by exists lost]. }
    destruct (submseteq_Permutation _ _ (remove_entity_values id ord (after ops) t)) as [lost E]. exists lost. cbn. by rewrite app_nil_r. }
  transitivity (held t (after ops) ++ given t (o, answer ops o) ++ all_returned t (seen ops)).
  - rewrite (Permutation_app_comm (all_returned _ _)). rewrite !app_assoc. rewrite <- E. apply submseteq_app; [|done]. rewrite app_assoc. by apply submseteq_inserts_r.
  - rewrite (Permutation_app_comm (given _ _)), app_assoc. by apply submseteq_app.
Qed.

(** In histories that keep to the rules of use: exactly.  Every value given to
    the world, or made of one in it, is stored, was handed back, or was
    dropped where [dropped] says, once. *)
Theorem C51_conserved ops t : rules ops ->
  exists d, (t ∈ types_of (seen ops) -> shows ops t d) /\ (t ∉ types_of (seen ops) -> d = []) /\
    d ++ all_returned t (seen ops) ++ all_dropped t (seen ops) ≡ₚ all_given t (seen ops) ++ all_made t (seen ops).
Proof.
  intros L. exists (held t (after ops)). destruct (reached ops L) as [H A]. pose proof (components_read_spec _ _ t H) as C.
  assert (held t (after ops) ≡ₚ vals (aexec ops a_init) t /\ (t ∈ types_of (seen ops) -> shows ops t (held t (after ops))) /\ (t ∉ types_of (seen ops) -> held t (after ops) = [])) as (Hh & H1 & H2).
  { unfold vals, shows, answer. cbn [step]. rewrite fmap_fst. unfold via_storage, bind, get, lift, ret, held. rewrite (ag_reg _ _ A). unfold registered.
    destruct (a_comps (aexec ops a_init) !! t) as [m|].
    - destruct C as (s & Es & Rs & Ew). rewrite Es, Ew. cbn. split; [|split; [done|]]. { by eapply rep_data. } intros []. by eexists.
    - unfold components_read in C. destruct (w_comps (after ops) !! t) as [st|]; [by destruct (st_ty st =? t)|]. cbn. unfold mv. rewrite map_to_list_empty. split; [done|]. split; [by intros []|done]. }
  split; [done|]. split; [done|]. rewrite Hh. clear H1 H2 Hh C H A.
  induction ops as [|o ops IH] using rev_ind; [done|]. pose proof (answer_ok _ _ L) as Ha. apply rules_snoc in L as [L1 L2]. specialize (IH L1). destruct (reached ops L1) as [H A].
  rewrite aexec_app, seen_snoc, all_returned_snoc, all_given_snoc. unfold all_dropped, all_made. rewrite !sum_snoc. cbn [aexec app].
  fold (all_dropped t (seen ops)) (all_made t (seen ops)).
  pose proof (call_values (seen ops) (aexec ops a_init) o (answer ops o) t (ag_val _ _ A) (fun q id => visits_get _ _ q id H) L2 Ha) as E.
  revert E IH. generalize (returned t (o, answer ops o)) (dropped (seen ops) t (o, answer ops o)) (given t (o, answer ops o)) (made (seen ops) t (o, answer ops o)) (vals (anext (aexec ops a_init) o) t) (vals (aexec ops a_init) t).
  generalize (all_returned t (seen ops)) (all_dropped t (seen ops)) (all_given t (seen ops)) (all_made t (seen ops)). clear. intros AR AD AG AM r d g m v' v E IH.
  transitivity ((v' ++ r ++ d) ++ (AR ++ AD)).
  { rewrite (swap_mid AR r AD d), (Permutation_app_comm (AR ++ AD)). by rewrite !app_assoc. }
  rewrite E. transitivity ((v ++ AR ++ AD) ++ (g ++ m)).
  { rewrite <- (app_assoc v), <- (app_assoc v). f_equiv. apply Permutation_app_comm. }
  rewrite IH. apply swap_mid.
Qed.
(** So values all different stay different: one handed back is not stored any
    more, nor handed back again. *)
Theorem C51_handed_back_once ops t d : Forall (fun o => in_place o = false) ops -> shows ops t d ->
  NoDup (all_given t (seen ops)) ->
  NoDup d /\ NoDup (all_returned t (seen ops)) /\ forall v, v ∈ all_returned t (seen ops) -> v ∉ d.
Proof.
  intros Hp Hd Hn. pose proof (C51_no_copies ops t d Hp Hd) as Hs. apply submseteq_Permutation in Hs as [k Hk]. rewrite Hk in Hn.
  apply NoDup_app in Hn as [Hn _]. apply NoDup_app in Hn as (H1 & H2 & H3). split; [done|]. split; [done|]. intros v Hv Hd'. by apply (H2 v).
Qed.
End value.

(** ** Concrete cases *)
Definition value_sample : list (op nat) := sample ++ [QueryMut (QRef true 1) (fun _ id v => v + 100 * id); Detach 1 4; Attach 1 9 99; Attach 7 4 77].
Example C51_case : rules value_sample /\ shows value_sample 1 [515; 333] /\
  all_given 1 (seen value_sample) = [11; 12; 13; 15; 14; 144; 33; 99] /\ all_made 1 (seen value_sample) = [544; 515; 333] /\
  all_returned 1 (seen value_sample) = [12; 544] /\ all_dropped 1 (seen value_sample) = [14; 11; 13; 144; 15; 33; 99].
Proof. split; [unfold value_sample; check_rules|]. repeat split; by vm_compute. Qed.
(** against the rules: a batch attached twice (C07), removing the longest
    waiting removed id (C15) *)
Definition unruly : list (op nat) :=
  [ Register 1; CreateEntities 2; BatchAttach 1 3 1 [11; 12]; BatchAttach 1 3 1 [21; 22]; Detach 1 2; RemoveEntity 1 [1]; Attach 1 1 31; RemoveEntity 1 [1]; StoreDataSet 1 0 41 ].
Example C51_no_copies_case : Forall (fun o => in_place o = false) unruly /\ shows unruly 1 [41; 12] /\
  all_given 1 (seen unruly) = [11; 12; 21; 22; 31; 41] /\ all_returned 1 (seen unruly) = [22] /\ NoDup (all_given 1 (seen unruly)).
Proof. split; [repeat constructor|]. split; [by vm_compute|]. split; [by vm_compute|]. split; [by vm_compute|]. apply (bool_decide_unpack _). by vm_compute. Qed.
Example C51_one_call_case : shows sample 1 [144; 15; 33] /\ shows (sample ++ [Attach 1 4 5]) 1 [5; 15; 33] /\
  shows (sample ++ [RemoveEntity 4 [1; 2]]) 1 [15; 33] /\
  shows (sample ++ [QueryMut (QRef true 1) (fun _ id v => v + 100 * id)]) 1 [544; 515; 333].
Proof. repeat split; by vm_compute. Qed.

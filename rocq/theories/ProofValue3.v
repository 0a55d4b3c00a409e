(** Values and threads (C52): each thread's hand, the storages, and the calls
    lock by lock. *)
From stdpp Require Import prelude list gmap.
From Verif Require Import Base Api ModelSparse ModelEntity ModelGroup ModelWorld ModelQuery ModelStep ModelConc
  Spec History SpecValue SpecValue2 ProofValue.

Section acc.
Context {V : Type}.
Variable t : nat.
Implicit Types (w : world V) (H : list V).

(** [acc Q H p]: running [p] with the values [H] in hand, whatever the others
    do, never makes values, and ends with [Q] *)
Fixpoint acc {A} (Q : outcome A -> list V -> Prop) (H : list V) (p : prog V A) : Prop :=
  match p with
  | PRet a => Q (Ret a) H
  | PPanic => Q Panic H
  | PUB | PHang => True
  | PAcq _ _ p' | PRel _ _ p' => acc Q H p'
  | PAct _ f k => forall w, exists H', held t (f w).2 ++ H' ⊆+ held t w ++ H /\
      match (f w).1 with Ret b => acc Q H' (k b) | Panic => Q Panic H' | _ => True end
  end.
Lemma acc_bind {A B} (Q : outcome B -> list V -> Prop) (Q' : outcome A -> list V -> Prop) H (p : prog V A) (k : A -> prog V B) :
  acc Q' H p -> (forall a H', Q' (Ret a) H' -> acc Q H' (k a)) -> (forall H', Q' Panic H' -> Q Panic H') -> acc Q H (pbind p k).
Proof.
  intros Hp Hk Hpa. revert H Hp. induction p as [a| | | |l x p IH|l x p IH|C lab f kk IH]; intros H Hp; cbn [acc pbind] in *; try by auto.
  intros w. destruct (Hp w) as (H' & Hs & Hr). exists H'. split; [done|]. destruct (f w).1; auto.
Qed.
Lemma acc_rels {A} (Q : outcome A -> list V -> Prop) H hs (p : prog V A) : acc Q H p -> acc Q H (rels hs p).
Proof. intros Hp. induction hs as [|[l x] hs IH]; done. Qed.
Lemma acc_catch {A B} (Q : outcome B -> list V -> Prop) (Q' : outcome A -> list V -> Prop) H mine (p : prog V A) (k : outcome A -> list (lock * bool) -> prog V B) :
  acc Q' H p -> (forall r m H', (r = Panic \/ exists a, r = Ret a) -> Q' r H' -> acc Q H' (k r m)) -> acc Q H (catch mine p k).
Proof.
  intros Hp Hk. revert H mine Hp. induction p as [a| | | |l x p IH|l x p IH|C lab f kk IH]; intros H mine Hp; cbn [acc catch] in *; try by auto.
  - apply Hk; [right; by eexists|done].
  - apply acc_rels, Hk; [by left|done].
  - intros w. destruct (Hp w) as (H' & Hs & Hr). exists H'. destruct (f w) as [o w']. cbn [fst snd] in *. split; [done|]. destruct o; cbn [acc]; auto. apply acc_rels, Hk; [by left|done].
Qed.

(** programs that only take away *)
Fixpoint tame {A} (p : prog V A) : Prop :=
  match p with
  | PAcq _ _ p' | PRel _ _ p' => tame p'
  | PAct _ f k => (forall w, held t (f w).2 ⊆+ held t w) /\ forall b, tame (k b)
  | _ => True
  end.
Lemma acc_tame {A} (Q : outcome A -> list V -> Prop) H (p : prog V A) : tame p -> (forall r, Q r H) -> acc Q H p.
Proof.
  intros Ht HQ. induction p as [a| | | |l x p IH|l x p IH|C lab f kk IH]; cbn [acc tame] in *; try by auto.
  intros w. exists H. destruct Ht as [Hf Hk]. split; [by apply submseteq_app|]. destruct (f w).1; auto.
Qed.
Lemma tame_bind {A B} (p : prog V A) (k : A -> prog V B) : tame p -> (forall a, tame (k a)) -> tame (pbind p k).
Proof. intros Hp Hk. induction p as [a| | | |l x p IH|l x p IH|C lab f kk IH]; cbn [tame pbind] in *; auto. destruct Hp as [? Hp]. split; auto. Qed.
Lemma tame_rels {A} hs (p : prog V A) : tame p -> tame (rels hs p).
Proof. induction hs as [|[l x] hs IH]; done. Qed.
Lemma tame_look {B} (f : world V -> B) : tame (look f).
Proof. done. Qed.
Lemma tame_ask {B} (f : world V -> outcome B) : tame (ask f).
Proof. done. Qed.
Lemma tame_assert b : tame (passert (V := V) b).
Proof. by destruct b. Qed.
Lemma tame_unwrap {A} (x : option A) : tame (punwrap (V := V) x).
Proof. by destruct x. Qed.
Lemma tame_for {A} (l : list A) (f : A -> prog V unit) : (forall x, tame (f x)) -> tame (pfor l f).
Proof. intros Hf. induction l as [|x l IH]; [done|]. apply tame_bind; [apply Hf|done]. Qed.
Lemma tame_storage u x : tame (p_storage (V := V) u x).
Proof. apply tame_bind; [done|intros b]. apply tame_bind; [apply tame_assert|done]. Qed.
Definition smaller w : nat -> list V -> Prop := fun u l => l ⊆+ held u w.
Lemma smaller_closed w u : sub_closed (smaller w u).
Proof. intros l l' E1 E2. unfold smaller in *. by transitivity l'. Qed.
Lemma smaller_perm w u : perm_closed (smaller w u).
Proof. apply sub_perm, smaller_closed. Qed.
Lemma smaller_refl w : wP (smaller w) w.
Proof. intros u. unfold smaller. done. Qed.
Lemma tame_act {B} lab (m : M (world V) B) : (forall w, holds (wP (smaller w)) m) -> tame (act lab m).
Proof. intros Hm. split; [|done]. intros w. exact (Hm w w (smaller_refl w) t). Qed.
Lemma tame_group i lab ff fp fn : (forall w a b, holds (gP (smaller w a) (smaller w b)) ff) -> (forall w a b, holds (gP (smaller w a) (smaller w b)) fp) -> tame (p_group_at (V := V) i lab ff fp fn).
Proof.
  intros Hf Hp. apply tame_bind; [done|intros h]. apply tame_bind; [apply tame_unwrap|intros [[k a] b]]. apply tame_bind; [apply tame_storage|intros _]. apply tame_bind; [apply tame_storage|intros _].
  apply tame_bind; [|done]. apply tame_act. intros w. by apply holds_group.
Qed.
Lemma tame_groups u i n : tame (p_groups (V := V) u i n).
Proof.
  revert i. induction n as [|n IH]; intros i; [done|]. cbn [p_groups acq pbind tame look act]. split; [done|]. intros h.
  destruct (match h with Some (_, a, b) => (a =? u) || (b =? u) | None => false end); cbn [rel pbind tame acq]; [|apply IH]. apply tame_bind; [apply IH|done].
Qed.
Lemma tame_each gs lab ff fp fn : (forall w a b, holds (gP (smaller w a) (smaller w b)) ff) -> (forall w a b, holds (gP (smaller w a) (smaller w b)) fp) -> tame (p_each_group (V := V) gs lab ff fp fn).
Proof. intros Hf Hp. apply tame_for. intros i. apply tame_bind; [by apply tame_group|done]. Qed.
Lemma tame_entity id : tame (p_entity (V := V) id).
Proof. cbn. split; [done|]. by intros []. Qed.
Lemma tame_exist id : tame (p_exist (V := V) id).
Proof. done. Qed.
Lemma tame_find_in id i n : tame (p_find_in (V := V) id i n).
Proof.
  revert i. induction n as [|n IH]; intros i; [done|]. cbn [p_find_in]. apply tame_bind; [done|intros _]. apply tame_bind; [done|intros h].
  apply tame_bind; [apply tame_unwrap|intros [[k a] b]]. apply tame_bind; [apply tame_storage|intros _]. apply tame_bind; [apply tame_storage|intros _]. apply tame_bind; [done|intros need].
  do 3 (apply tame_bind; [done|intros _]). destruct need; [|apply IH]. apply tame_bind; [done|intros _]. apply tame_bind; [apply IH|done].
Qed.
Lemma tame_find_storages id ord : tame (p_find_storages (V := V) id ord).
Proof.
  induction ord as [|u ord IH]; [done|]. cbn [p_find_storages]. apply tame_bind; [done|intros _]. apply tame_bind; [done|intros need]. apply tame_bind; [done|intros _]. destruct need; [|apply IH].
  apply tame_bind; [done|intros _]. apply tame_bind; [apply IH|done].
Qed.
Lemma tame_remove id ord : tame (p_remove (V := V) id ord).
Proof.
  apply tame_bind; [apply tame_exist|intros b]. apply tame_bind; [apply tame_assert|intros _]. apply tame_bind; [done|intros n]. apply tame_bind; [apply tame_find_in|intros gs].
  apply tame_bind.
  { pose proof smaller_closed as Hc. pose proof smaller_perm as Hp. apply tame_each; intros w a b'.
    - apply holds_bind; [by apply holds_full_remove|intros _]. apply holds_bind; [apply holds_on_a; by apply holds_cs_remove|intros _]. apply holds_on_b; by apply holds_cs_remove.
    - apply holds_bind; [by apply holds_part_remove|intros _]. apply holds_on_a; by apply holds_cs_remove. }
  intros _. apply tame_bind; [apply tame_find_storages|intros ts]. apply tame_bind.
  { apply tame_for. intros u. apply tame_bind; [|done]. apply tame_act. intros w. apply holds_dyn. apply holds_cs_remove. apply smaller_closed. }
  intros _. apply tame_bind; [done|intros _]. apply tame_bind; [|done]. apply tame_act. intros w. apply holds_em.
Qed.
Lemma tame_new : tame (p_new_entity (V := V)).
Proof.
  apply tame_bind; [done|intros _]. apply tame_bind; [apply tame_act; intros w; apply holds_em|intros id]. apply tame_bind; [done|intros _]. apply tame_bind; [apply tame_entity|intros b]. apply tame_bind; [apply tame_assert|done].
Qed.
Lemma tame_news n : tame (p_new_entities (V := V) n).
Proof. apply tame_bind; [done|intros _]. apply tame_bind; [apply tame_act; intros w; apply holds_em|intros r]. done. Qed.
Lemma tame_find_group k a b i n : tame (p_find_group (V := V) k a b i n).
Proof.
  revert i. induction n as [|n IH]; intros i; [done|]. cbn [p_find_group]. apply tame_bind; [done|intros _]. apply tame_bind; [done|intros h]. apply tame_bind; [done|intros _].
  destruct (bool_decide (h = Some (k, a, b))); [done|apply IH].
Qed.
Lemma tame_open_group k ma mb a b : tame (p_open_group (V := V) k ma mb a b).
Proof.
  unfold p_open_group. apply tame_bind; [done|intros r]. apply tame_bind; [apply tame_assert|intros _]. do 2 (apply tame_bind; [done|intros _]). do 2 (apply tame_bind; [apply tame_ask|intros _]).
  apply tame_bind; [done|intros n]. apply tame_bind; [apply tame_find_group|intros f]. apply tame_bind; [apply tame_assert|intros _]. apply tame_bind; [apply tame_find_group|intros f'].
  apply tame_bind; [apply tame_unwrap|intros gi]. apply tame_bind; [done|intros _]. destruct k; [apply tame_bind; [apply tame_ask|done]|apply tame_bind; [apply tame_ask|done]|done].
Qed.
Lemma tame_open q : tame (p_open (V := V) q).
Proof.
  induction q as [m u|a IHa b IHb|a IHa b IHb c IHc|a IHa b IHb c IHc d IHd|a IHa b IHb c IHc d IHd e IHe|a IHa b IHb|a IHa b IHb|k ma mb a b]; cbn [p_open].
  - apply tame_bind; [done|intros b]. apply tame_bind; [apply tame_assert|intros _]. apply tame_bind; [done|intros _]. apply tame_bind; [apply tame_ask|done].
  - apply tame_bind; [done|intros x]. apply tame_bind; [done|intros y]. done.
  - apply tame_bind; [done|intros x]. apply tame_bind; [done|intros y]. apply tame_bind; [done|intros z]. done.
  - apply tame_bind; [done|intros x]. apply tame_bind; [done|intros y]. apply tame_bind; [done|intros z]. apply tame_bind; [done|intros z']. done.
  - apply tame_bind; [done|intros x]. apply tame_bind; [done|intros y]. apply tame_bind; [done|intros z]. apply tame_bind; [done|intros z']. apply tame_bind; [done|intros z'']. done.
  - apply tame_bind; [done|intros x]. apply tame_bind; [done|intros y]. done.
  - apply tame_bind; [done|intros x]. apply tame_bind; [done|intros y]. done.
  - apply tame_open_group.
Qed.

(** calls *)
Definition Qc (o : op V) (left : list V) (r : outcome (out V)) (H : list V) : Prop := left ++ returned t (o, r) ⊆+ H.
Lemma act_step o left w : in_place o = false -> (forall id ord, o <> RemoveEntity id ord) ->
  held t (step o w).2 ++ (left ++ returned t (o, (step o w).1)) ⊆+ held t w ++ (given t (o, Panic) ++ left).
Proof.
  intros Ho Hr. destruct (step_values o w t Ho Hr) as (d & Hd & _). change (given t (o, (step o w).1)) with (given t (o, Panic)) in Hd.
  rewrite (app_assoc (held t w)), <- Hd. rewrite (Permutation_app_comm left), !app_assoc. apply submseteq_app; [|done]. by apply submseteq_inserts_r.
Qed.
Lemma sub_extra (g left : list V) : left ⊆+ g ++ left.
Proof. by apply submseteq_inserts_l. Qed.
Lemma acc_guard l x lab there o H left : in_place o = false -> (forall id ord, o <> RemoveEntity id ord) -> H = given t (o, Panic) ++ left -> returned t (o, Panic) = [] ->
  acc (Qc o left) H (via_guard l x lab there o).
Proof.
  intros Ho Hr -> Hp. assert (Hs := act_step o left). unfold via_guard. cbn [look act pbind acc]. intros w. exists (given t (o, Panic) ++ left). split; [done|]. cbn [fst].
  destruct (there w); cbn [acq pbind acc act]; intros w'; exists (left ++ returned t (o, (step o w').1)); (split; [by apply Hs|]).
  - destruct ((step o w').1) as [r| | |] eqn:E; cbn [rel pbind acc]; unfold Qc; done.
  - destruct ((step o w').1) as [r| | |] eqn:E; cbn [acc]; unfold Qc; done.
Qed.
Lemma add_act u id v left w : held t (storage_mut u (ss_add id v) w).2 ++ left ⊆+ held t w ++ ((if decide (u = t) then [v] else []) ++ left).
Proof.
  unfold storage_mut. destruct (w_comps w !! u) as [st|] eqn:E; [|cbn [snd]; apply submseteq_app; [done|apply sub_extra]]. destruct (st_ty st =? u); [|cbn [snd]; apply submseteq_app; [done|apply sub_extra]].
  pose proof (add_takes id v (st_set st)) as Ha. destruct (ss_add id v (st_set st)) as [r s']. cbn [snd] in *. rewrite held_set. cbn [st_set].
  destruct (decide (t = u)) as [->|Hne]; [rewrite decide_True by done|rewrite decide_False by done; done]. unfold held. rewrite E. rewrite app_assoc. apply submseteq_app; [|done].
  assert (sdata s' = sdata (st_set st) -> sdata s' ⊆+ sdata (st_set st) ++ [v]) as Hsame. { intros ->. by apply submseteq_inserts_r. }
  destruct r as [[]| | |]; try (by apply Hsame). destruct Ha as (d & Hd & _). rewrite <- Permutation_cons_append. rewrite <- Hd. by apply submseteq_inserts_r.
Qed.
Lemma acc_attach u id v left : acc (fun _ H => left ⊆+ H) ((if decide (u = t) then [v] else []) ++ left) (p_handle_attach u id v).
Proof.
  unfold p_handle_attach. pose proof (sub_extra (if decide (u = t) then [v] else []) left) as Hx.
  eapply acc_bind; [apply (acc_tame (fun _ H => H = (if decide (u = t) then [v] else []) ++ left)); [done|done]|intros b H' ->|intros ? ->; done].
  eapply acc_bind; [apply (acc_tame (fun _ H => H = (if decide (u = t) then [v] else []) ++ left)); [apply tame_assert|done]|intros ? H' ->|intros ? ->; done].
  cbn [acq pbind act acc]. intros w. exists left. split; [apply add_act|]. destruct ((storage_mut u (ss_add id v) w).1) as [[]| | |]; try done. cbn [rel pbind acc].
  apply acc_tame; [|done]. apply (tame_bind (look n_groups)); [done|intros n]. apply tame_bind; [apply tame_groups|intros gs]. apply tame_each; intros w' x1 x2; [apply holds_full_add|apply holds_part_add]; apply smaller_perm.
Qed.
Lemma acc_detach u id H : acc (fun r H' => H' = H ++ taken t u r) H (p_handle_detach u id).
Proof.
  unfold p_handle_detach. assert (H = H ++ taken (V := V) t u Panic) as HP by (simpl; by rewrite app_nil_r).
  eapply acc_bind; [apply (acc_tame (fun _ H' => H' = H)); [done|done]|intros b H' ->|intros ? ->; done].
  eapply acc_bind; [apply (acc_tame (fun _ H' => H' = H)); [apply tame_assert|done]|intros ? H' ->|intros ? ->; done].
  eapply acc_bind; [apply (acc_tame (fun _ H' => H' = H)); [done|done]|intros n H' ->|intros ? ->; done].
  eapply acc_bind; [apply (acc_tame (fun _ H' => H' = H)); [apply tame_groups|done]|intros gs H' ->|intros ? ->; done].
  eapply acc_bind; [apply (acc_tame (fun _ H' => H' = H)); [apply tame_each; intros w' x1 x2; [apply holds_full_remove|apply holds_part_remove]; apply smaller_perm|done]|intros ? H' ->|intros ? ->; done].
  cbn [acq pbind act acc]. intros w. exists (H ++ taken t u (storage_mut u (ss_remove id) w).1). split.
  - unfold storage_mut. destruct (w_comps w !! u) as [st|] eqn:E; [|cbn; by rewrite app_nil_r]. destruct (st_ty st =? u); [|cbn; by rewrite app_nil_r].
    pose proof (remove_takes id (st_set st)) as Ha. destruct (ss_remove id (st_set st)) as [r s']. cbn [fst snd]. rewrite held_set. cbn [st_set].
    rewrite (Permutation_app_comm H), app_assoc. apply submseteq_app; [|done]. destruct (decide (t = u)) as [->|Hne].
    + unfold held. rewrite E. destruct r as [[x|]| | |]; cbn [taken]; try (by rewrite app_nil_r, Ha). rewrite decide_True by done. by rewrite <- Permutation_cons_append, Ha.
    + unfold taken. destruct r as [[x|]| | |]; try (by rewrite app_nil_r). rewrite decide_False by done. by rewrite app_nil_r.
  - destruct ((storage_mut u (ss_remove id) w).1) as [r| | |]; cbn [rel pbind acc]; done.
Qed.
Lemma acc_batch lo hi u vs left : acc (fun _ H => left ⊆+ H) ((if decide (u = t) then vs else []) ++ left) (p_batch lo hi u vs).
Proof.
  unfold p_batch. pose proof (sub_extra (if decide (u = t) then vs else []) left) as Hx.
  eapply acc_bind; [apply (acc_tame (fun _ H => H = (if decide (u = t) then vs else []) ++ left)); [apply tame_assert|done]|intros ? H' ->|intros ? ->; done].
  eapply acc_bind; [apply (acc_tame (fun _ H => H = (if decide (u = t) then vs else []) ++ left)); [apply tame_storage|done]|intros ? H' ->|intros ? ->; done].
  cbn [act pbind acc]. intros w. exists left. split; [|destruct ((storage_mut u (ss_add_batch (seq lo (hi - lo)) vs) w).1) as [x1| | |]; cbn [rel pbind acc]; done].
  unfold storage_mut. destruct (w_comps w !! u) as [st|] eqn:E; [|cbn [snd]; apply submseteq_app; [done|apply sub_extra]]. destruct (st_ty st =? u); [|cbn [snd]; apply submseteq_app; [done|apply sub_extra]].
  unfold ss_add_batch, bind, get, assert, put, panic, ret. destruct (length (seq lo (hi - lo)) =? length vs); cbn [snd]; rewrite held_set; cbn [st_set sdata].
  - destruct (decide (t = u)) as [->|Hne]; [rewrite decide_True by done|rewrite decide_False by done; done]. unfold held. rewrite E. by rewrite app_assoc.
  - destruct (decide (t = u)) as [->|Hne]; [rewrite decide_True by done|rewrite decide_False by done; done]. unfold held. rewrite E. apply submseteq_app; [done|apply sub_extra].
Qed.
Lemma acc_weak {A} (Q Q' : outcome A -> list V -> Prop) H (p : prog V A) : (forall r H', Q r H' -> Q' r H') -> acc Q H p -> acc Q' H p.
Proof. intros HQ. revert H. induction p as [a| | | |l x p IH|l x p IH|C lab f kk IH]; intros H; cbn [acc]; auto. intros Hp w. destruct (Hp w) as (H' & Hs & Hr). exists H'. split; [done|]. destruct (f w).1; auto. Qed.
Lemma acc_call o left : in_place o = false -> acc (Qc o left) (given t (o, Panic) ++ left) (p_call o).
Proof.
  intros Ho. assert (forall H, (forall r, returned t (o, r) = []) -> tame (p_call o) -> left ⊆+ H -> acc (Qc o left) H (p_call o)) as Hq.
  { intros H Hr Ht Hl. apply acc_tame; [done|]. intros r. unfold Qc. by rewrite Hr, app_nil_r. }
  destruct o; try discriminate Ho; try (by apply acc_guard).
  - apply Hq; try done.
  - apply Hq; try done.
  - apply Hq; [by intros []| |done]. cbn [p_call]. apply tame_bind; [apply tame_new|done].
  - apply Hq; [by intros []| |done]. cbn [p_call]. apply tame_bind; [apply tame_news|done].
  - apply Hq; [by intros []| |done]. cbn [p_call]. apply tame_bind; [apply tame_remove|done].
  - apply Hq; [by intros []|done|done].
  - (* Attach *) cbn [p_call given fst]. pose proof (sub_extra (if decide (t0 = t) then [v] else []) left) as Hx.
    eapply acc_bind; [apply (acc_tame (fun _ H => H = (if decide (t0 = t) then [v] else []) ++ left)); [apply tame_entity|done]|intros b H' ->|intros ? ->; unfold Qc; cbn [returned]; by rewrite app_nil_r].
    eapply acc_bind; [apply (acc_tame (fun _ H => H = (if decide (t0 = t) then [v] else []) ++ left)); [apply tame_assert|done]|intros ? H' ->|intros ? ->; unfold Qc; cbn [returned]; by rewrite app_nil_r].
    eapply acc_bind; [apply acc_attach|cbn beta; intros ? H' Hl|cbn beta; intros H' Hl]; cbn [rel pbind acc]; unfold Qc; cbn [returned]; by rewrite app_nil_r.
  - (* Detach *) cbn [p_call given fst app].
    eapply acc_bind; [apply (acc_tame (fun _ H => H = left)); [apply tame_entity|done]|intros b H' ->|intros ? ->; unfold Qc; cbn [returned]; by rewrite app_nil_r].
    eapply acc_bind; [apply (acc_tame (fun _ H => H = left)); [apply tame_assert|done]|intros ? H' ->|intros ? ->; unfold Qc; cbn [returned]; by rewrite app_nil_r].
    eapply acc_bind; [apply acc_detach|cbn beta; intros r H' ->; cbn [rel pbind acc]; unfold Qc; by destruct r as [x1|]|cbn beta; intros H' ->; unfold Qc; done].
  - (* Batch *) cbn [p_call acc]. unfold Qc. cbn [returned]. rewrite app_nil_r. apply sub_extra.
  - apply Hq; [by intros []|done|done].
  - (* Query *) cbn [given fst app]. apply Hq; [by intros []| |done]. cbn [p_call]. apply tame_bind; [apply tame_open|intros x]. apply tame_bind; [apply tame_ask|intros l]. by apply tame_rels.
  - apply Hq; [by intros []|done|done].
Qed.
End acc.

(** * Clients and threads *)
Section compile.
Context {V : Type}.
Variable t : nat.
Implicit Types (w : world V) (H : list V).
Lemma grow (g left h h' : list V) : h ⊆+ h' -> h ≡ₚ g ++ left -> exists left', h' ≡ₚ g ++ left' /\ left ⊆+ left'.
Proof.
  intros Hs Hp. apply submseteq_Permutation in Hs as (k & Hk). exists (left ++ k). split; [by rewrite Hk, Hp, app_assoc|by apply submseteq_inserts_r].
Qed.
Lemma honest_mono (cl : client V) h h' : h ⊆+ h' -> honest t h cl -> honest t h' cl.
Proof.
  revert h h'. induction cl as [|o k IH|id k IH|k IH|n k IH|j u v k IH|j u k IH|j u vs k IH|u x k IH|u id x k IH|r x k IH|j o k IH|q k IH|j c k IH|j k IH];
    intros h h' Hs; cbn [honest]; try (by eauto).
  - intros (Ho & left & Hp & Hk). split; [done|]. destruct (grow _ _ _ _ Hs Hp) as (left' & Hp' & Hl). exists left'. split; [done|]. intros r. eapply IH; [|apply Hk]. by apply submseteq_app.
  - intros (left & Hp & Hk). destruct (grow _ _ _ _ Hs Hp) as (left' & Hp' & Hl). exists left'. split; [done|]. intros r. eapply IH; [|apply Hk]. done.
  - intros Hk r. eapply IH; [|apply Hk]. by apply submseteq_app.
  - intros (left & Hp & Hk). destruct (grow _ _ _ _ Hs Hp) as (left' & Hp' & Hl). exists left'. split; [done|]. intros r. eapply IH; [|apply Hk]. done.
  - intros (Ho & left & Hp & Hk). split; [done|]. destruct (grow _ _ _ _ Hs Hp) as (left' & Hp' & Hl). exists left'. split; [done|]. intros r. eapply IH; [|apply Hk]. by apply submseteq_app.
  - intros [Hc Hk]. split; [done|]. intros r. eapply IH; [done|apply Hk].
Qed.
Lemma acc_perm {A} (Q : outcome A -> list V -> Prop) H1 H2 (p : prog V A) : H1 ≡ₚ H2 -> (forall r H H', H ≡ₚ H' -> Q r H -> Q r H') -> acc t Q H1 p -> acc t Q H2 p.
Proof.
  intros Hp HQ. revert H1 H2 Hp. induction p as [a| | | |l x p IH|l x p IH|C lab f kk IH]; intros H1 H2 Hp; cbn [acc]; eauto.
  intros Ha w. destruct (Ha w) as (H' & Hs & Hr). exists H'. split; [by rewrite <- Hp|done].
Qed.
Lemma returned_panic (o : op V) : returned t (o, Panic) = [].
Proof. by destruct o. Qed.
Lemma Qc_perm o left r H H' : H ≡ₚ H' -> Qc t o left r H -> Qc t o left r H'.
Proof. unfold Qc. by intros ->. Qed.
Lemma call_same J (c : qcall V) w st o w' st' : match c with CWrite _ => False | _ => True end -> run_call J c (w, st) = (o, (w', st')) -> w' = w.
Proof.
  intros Hc. destruct c; try done; cbn [run_call].
  - destruct (qi_next J w st) as [[oi| | |] s1]; try by intros [= <- <- <-]. destruct (read_item w oi); by intros [= <- <- <-].
  - destruct (qi_next_id J w st) as [[oi| | |] s1]; try by intros [= <- <- <-].
    destruct oi as [[? ?]|]; [|by intros [= <- <- <-]]. repeat case_match; by intros [= <- <- <-].
  - repeat case_match; by intros [= <- <- <-].
  - repeat case_match; by intros [= <- <- <-].
Qed.
Lemma acc_compile (cl : client V) hand e : honest t hand cl -> acc t (fun _ _ => True) hand (compile e cl).
Proof.
  revert hand e. induction cl as [|o k IH|id k IH|k IH|n k IH|j u v k IH|j u k IH|j u vs k IH|u x k IH|u id x k IH|r x k IH|j o k IH|q k IH|j c k IH|j k IH];
    intros hand e; cbn [honest compile].
  - intros _. by apply acc_rels.
  - intros (Ho & left & Hp & Hk). eapply acc_catch.
    + eapply acc_perm; [symmetry; exact Hp|apply Qc_perm|by apply acc_call].
    + intros r m H' Hr Hq. apply IH. eapply honest_mono; [|apply Hk]. exact Hq.
  - intros Hk. eapply acc_catch; [apply (acc_tame t (fun _ H => H = hand)); [apply tame_entity|done]|]. cbn beta. intros r m H' Hr ->. apply IH, Hk.
  - intros Hk. eapply acc_catch; [apply (acc_tame t (fun _ H => H = hand)); [apply tame_new|done]|]. cbn beta. intros r m H' Hr ->. apply IH, Hk.
  - intros Hk. eapply acc_catch; [apply (acc_tame t (fun _ H => H = hand)); [apply tame_news|done]|]. cbn beta. intros r m H' Hr ->. apply IH, Hk.
  - intros (left & Hp & Hk). destruct (e !! j) as [[id|?|?|?|?]|]; try (by apply acc_rels). eapply acc_catch.
    + eapply acc_perm; [symmetry; exact Hp| |apply acc_attach]. cbn beta. by intros r H H' ->.
    + cbn beta. intros r m H' Hr Hl. assert (forall e', acc t (fun _ _ => True) H' (compile e' (k r))) as Hc. { intros e'. apply IH. eapply honest_mono; [|apply Hk]. exact Hl. }
      destruct r; cbn [acc]; apply Hc.
  - intros Hk. destruct (e !! j) as [[id|?|?|?|?]|]; try (by apply acc_rels). eapply acc_catch; [apply acc_detach|]. cbn beta. intros r m H' Hr ->. apply IH, Hk.
  - intros (left & Hp & Hk). destruct (e !! j) as [[id|lo hi|?|?|?]|]; try (by apply acc_rels). eapply acc_catch.
    + eapply acc_perm; [symmetry; exact Hp| |apply acc_batch]. cbn beta. by intros r H H' ->.
    + cbn beta. intros r m H' Hr Hl. assert (forall e', acc t (fun _ _ => True) H' (compile e' (k r))) as Hc. { intros e'. apply IH. eapply honest_mono; [|apply Hk]. exact Hl. }
      destruct r; cbn [acc]; apply Hc.
  - intros Hk. cbn [acc]. intros w. exists hand. split; [done|]. cbn [fst]. destruct (has_registered u w); cbn [acc]; apply IH, Hk.
  - intros Hk. cbn [acc]. intros w. exists hand. split; [done|]. cbn [fst]. destruct (has_registered u w); cbn [acc]; [|apply IH, Hk].
    intros w'. exists hand. split; [done|]. cbn [fst]. destruct (storage_has w' id u); cbn [acc]; apply IH, Hk.
  - intros Hk. cbn [acc]. intros w. exists hand. split; [done|]. cbn [fst]. destruct (has_res r w); cbn [acc]; apply IH, Hk.
  - intros (Ho & left & Hp & Hk). destruct (e !! j) as [ob|]; [|by apply acc_rels]. destruct (through ob o) eqn:Ht; [|by apply acc_rels].
    assert (forall id ord, o <> RemoveEntity id ord) as Hr. { intros id ord ->. destruct ob; discriminate Ht. }
    eapply (acc_catch t _ (Qc t o left)).
    + cbn [act acc]. intros w. exists (left ++ returned t (o, (step o w).1)). split; [rewrite Hp; by apply act_step|].
      destruct ((step o w).1) as [x1| | |]; unfold Qc; done.
    + intros r m H' Hr' Hq. apply IH. eapply honest_mono; [|apply Hk]. exact Hq.
  - intros Hk. eapply acc_catch; [apply (acc_tame t (fun _ H => H = hand)); [apply tame_open|done]|]. cbn beta. intros r m H' Hr ->. destruct r; cbn [acc]; try done; apply IH, Hk.
  - intros [Hc Hk]. destruct (e !! j) as [[?|?|?|?|J st hs]|]; try (by apply acc_rels). cbn [acc]. intros w. exists hand.
    assert (own_writes hs c = c) as -> by (by destruct c). destruct (run_call J c (w, st)) as [o [w' st']] eqn:E. cbn [fst snd]. split.
    + assert (w' = w) as -> by (by eapply call_same). done.
    + destruct o; cbn [acc]; try done; apply IH, Hk.
  - intros Hk. destruct (e !! j) as [ob|]; [|by apply acc_rels]. apply acc_rels, IH, Hk.
Qed.
End compile.

(** * Threads *)
Section threads.
Context {V : Type}.
Variable t : nat.
Implicit Types (w : world V) (H : list V) (c : conf V).
Definition tacc H (th : thread V) : Prop := acc t (fun _ _ => True) H (th_prog th).
Lemma concat_insert (l : list (list V)) i a b : l !! i = Some a -> concat (<[i := b]> l) ++ a ≡ₚ concat l ++ b.
Proof.
  intros Hl. rewrite (insert_take_drop _ _ _ (lookup_lt_Some _ _ _ Hl)). rewrite <- (take_drop_middle _ _ _ Hl) at 3. rewrite !concat_app. cbn [concat].
  rewrite <- !app_assoc. apply Permutation_app_head. rewrite (Permutation_app_comm b), (Permutation_app_comm a), <- !app_assoc. apply Permutation_app_head, Permutation_app_comm.
Qed.
Lemma tstep_acc others th w th' w' H : tacc H th -> tstep others th w = Some (th', w') ->
  exists H', tacc H' th' /\ held t w' ++ H' ⊆+ held t w ++ H.
Proof.
  intros Ha Hs. unfold tacc in *. unfold tstep in Hs. destruct (th_prog th) as [a| | | |l x p|l x p|C lab f kk]; try done; cbn [acc] in Ha.
  - destruct (conflict (th_holds th ++ others) l x); [done|]. injection Hs as <- <-. exists H. split; done.
  - injection Hs as <- <-. exists H. split; done.
  - destruct (Ha w) as (H' & Hsub & Hr). destruct (f w) as [o w1]. cbn [fst snd] in *. exists H'. destruct o; injection Hs as <- <-; split; done.
Qed.
Definition hinv (d : list V) c : Prop :=
  exists Hs, Forall2 tacc Hs (cf_threads c) /\ held t (cf_world c) ++ concat Hs ⊆+ d.
Lemma cstep_hinv d c i c' : hinv d c -> cstep i c = Some c' -> hinv d c'.
Proof.
  intros (Hs & Hf & Hsub) Hc. unfold cstep in Hc. destruct (cf_threads c !! i) as [th|] eqn:Ei; [|done].
  destruct (tstep (holds_of_others i (cf_threads c)) th (cf_world c)) as [[th' w']|] eqn:Et; [|done]. injection Hc as <-.
  destruct (Forall2_lookup_r _ _ _ _ _ Hf Ei) as (H & Hi & Ha). destruct (tstep_acc _ _ _ _ _ _ Ha Et) as (H' & Ha' & Hle).
  exists (<[i := H']> Hs). cbn [cf_world cf_threads]. split; [by apply Forall2_insert|].
  transitivity (held t (cf_world c) ++ concat Hs); [|done].
  assert (held t w' ++ concat (<[i := H']> Hs) ++ H ⊆+ held t (cf_world c) ++ concat Hs ++ H) as Hx.
  { rewrite (concat_insert _ _ _ H' Hi). rewrite (Permutation_app_comm (concat Hs) H'), (Permutation_app_comm (concat Hs) H), !app_assoc. by apply submseteq_app. }
  rewrite !app_assoc in Hx. apply submseteq_Permutation in Hx as (k & Hk). assert (held t (cf_world c) ++ concat Hs ≡ₚ (held t w' ++ concat (<[i := H']> Hs)) ++ k) as ->.
  { eapply (Permutation_app_inv_r H). rewrite Hk. rewrite <- !app_assoc. do 2 apply Permutation_app_head. apply Permutation_app_comm. }
  by apply submseteq_inserts_r.
Qed.
Lemma run_hinv d sched c c' : hinv d c -> run sched c = Some c' -> hinv d c'.
Proof.
  revert c. induction sched as [|i sched IH]; intros c Hi; cbn [run]; [by intros [= <-]|]. destruct (cstep i c) as [c1|] eqn:E; [|done]. apply IH. by eapply cstep_hinv.
Qed.
Lemma start_hinv w0 (cs : list (client V)) hands : Forall2 (honest t) hands cs -> hinv (held t w0 ++ concat hands) (start w0 cs).
Proof.
  intros Hh. exists hands. split; [|done]. cbn [start cf_threads]. apply Forall2_fmap_r. eapply Forall2_impl; [exact Hh|]. intros h cl Hc. unfold tacc. cbn [th_prog]. by apply acc_compile.
Qed.
End threads.

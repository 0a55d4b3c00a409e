(** Which objects a thread keeps: proofs for PropKeep.v. *)
From stdpp Require Import prelude list gmap.
From Verif Require Import Base Api ModelSparse ModelEntity ModelGroup ModelWorld ModelQuery ModelStep ModelConc SpecConc SpecKeep
  Spec History ProofSparse ProofWorld ProofWf ProofTerm ProofConc ProofConc2 ProofConc3
  ProofConc4 ProofConc5 ProofConc6 ProofConc7 ProofConc8 ProofConc9 ProofConc10 ProofConc11.

Section keep.
Context {V : Type}.
Local Notation hold := (lock * bool)%type.
Variable w0 : world V.
Implicit Types (w : world V) (e : list (obj V)) (cl : client V) (hs mine h : list hold) (pl : place (V := V)).

(** guards taken and given back *)
Fixpoint bal {A} mine (p : prog V A) (Q : A -> list hold -> Prop) : Prop :=
  match p with
  | PRet a => exists m, m ≡ₚ mine /\ Q a m
  | PPanic | PUB | PHang => True
  | PAcq l x k => bal ((l, x) :: mine) k Q
  | PRel l x k => (l, x) ∈ mine /\ bal (drop_hold l x mine) k Q
  | PAct _ f k => forall w, same_shape w0 w -> match (f w).1 with Ret b => bal mine (k b) Q | _ => True end
  end.
Lemma wp_bal {A} pn h0 mine (p : prog V A) Q : wp w0 nolt False pn h0 mine p Q -> bal mine p Q.
Proof.
  revert mine. induction p as [a| | | |l x p IH|l x p IH|C lab f kk IH]; intros mine; cbn [wp bal]; try done.
  - intros [_ H]. by apply IH.
  - intros [H1 H]. split; [done|]. by apply IH.
  - intros [_ H] w Hw. specialize (H w (conj Hw (fun F : False => False_ind _ F))). destruct ((f w).1); try done. by apply IH.
Qed.
(** an id the call gives a handle for was seen to exist in its last step *)
Fixpoint sees {A} (g : A -> option nat) (p : prog V A) : Prop :=
  match p with
  | PRet a => g a = None
  | PPanic | PUB | PHang => True
  | PAcq _ _ k | PRel _ _ k => sees g k
  | PAct _ f k => forall w b, (f w).1 = Ret b ->
      (exists a, k b = PRet a /\ forall id, g a = Some id -> exist id (f w).2 = Ret true) \/ sees g (k b)
  end.
Lemma sees_none {A} (p : prog V A) : sees (fun _ => None) p.
Proof. induction p as [a| | | |l x p IH|l x p IH|C lab f kk IH]; cbn [sees]; auto. Qed.
Lemma sees_entity id : sees (fun b : bool => if b then Some id else None) (p_entity (V := V) id).
Proof.
  unfold p_entity. cbn [acq pbind sees ask act]. intros w b Hb. cbn [fst snd] in *. destruct b; [left|right; done].
  exists true. split; [done|]. by intros id' [= <-].
Qed.
Lemma sees_new : sees (fun id : nat => Some id) (p_new_entity (V := V)).
Proof.
  unfold p_new_entity. cbn [acq pbind sees act]. intros w id Hb. right. unfold p_entity. cbn [rel acq pbind sees ask act]. intros w' b Hb'. cbn [fst snd] in *.
  destruct b; [left|right; done]. exists id. split; [done|]. by intros id' [= <-].
Qed.

Definition running {A} (p : prog V A) : Prop := match p with PAcq _ _ _ | PRel _ _ _ | PAct _ _ _ => True | _ => False end.
Definition left_of (r : list hold * list (obj V) * client V) : prog V unit := rels r.1.1 (compile r.1.2 r.2).
Definition then_holds (r : list hold * list (obj V) * client V) : list hold := r.1.1 ++ all_holds r.1.2.
Definition then_keeps (r : list hold * list (obj V) * client V) : list (obj V) := r.1.2.
Definition calls {A} e (k : outcome A -> list hold * list (obj V) * client V) (K : outcome A -> prog V unit) (g : A -> option nat) : Prop :=
  (forall a, K (Ret a) = left_of (k (Ret a))) /\ K Panic = left_of (k Panic) /\ all_holds e ≡ₚ then_holds (k Panic) /\
  (forall a id, JEntity id ∈ then_keeps (k (Ret a)) -> JEntity id ∈ e \/ g a = Some id) /\ (forall id, JEntity id ∈ then_keeps (k Panic) -> JEntity id ∈ e).
Definition placed pl (p : prog V unit) h : Prop :=
  match pl with
  | InCall e mine q k => running q /\ exists K g, p = catch mine q (fun r _ => K r) /\ calls e k K g /\ sees g q /\
      h ≡ₚ mine ++ all_holds e /\ bal mine q (fun a m => m ++ all_holds e ≡ₚ then_holds (k (Ret a)))
  | Dropping hs e cl => p = rels hs (compile e cl) /\ h ≡ₚ hs ++ all_holds e /\ (hs = [] -> e = [] /\ cl = Done)
  | At e cl => p = compile e cl /\ h ≡ₚ all_holds e /\
      match cl with GetStore _ _ _ | GetComp _ _ _ _ | GetRes _ _ _ => True | ICall j _ _ => exists J st hs, e !! j = Some (JIter J st hs) | _ => False end
  | Getting l x ob e cl => p = PAcq l x (compile (ob :: e) cl) /\ h ≡ₚ all_holds e /\ obj_holds ob = [(l, x)] /\ forall id, ob <> JEntity id
  | Taking t id x e k => p = PAcq (LStore t) x (PAct BRead (fun w => (Ret (storage_has w id t), w)) (fun b : bool =>
            if b then compile (JStore t x :: e) (k true) else PRel (LStore t) x (compile e (k false)))) /\ h ≡ₚ all_holds e
  | Looking t id x e k => p = PAct BRead (fun w => (Ret (storage_has w id t), w)) (fun b : bool =>
            if b then compile (JStore t x :: e) (k true) else PRel (LStore t) x (compile e (k false))) /\ h ≡ₚ (LStore t, x) :: all_holds e
  | Lost e => (p = PUB \/ p = PHang) /\ all_holds e ⊆+ h
  end.
Lemma placed_holds pl p h : placed pl p h -> all_holds (keeping pl) ⊆+ h.
Proof.
  destruct pl as [A e mine q k|hs e cl|e cl|l x ob e cl|t id x e k|t id x e k|e]; cbn [placed keeping].
  - intros (_ & K & g & _ & _ & _ & -> & _). by apply submseteq_inserts_l.
  - intros (_ & -> & _). by apply submseteq_inserts_l.
  - by intros (_ & -> & _).
  - by intros (_ & -> & _).
  - by intros [_ ->].
  - intros [_ ->]. by apply submseteq_cons.
  - by intros [_ ?].
Qed.
Lemma placed_exact pl p h : placed pl p h -> lost pl = false -> h ≡ₚ extra pl ++ all_holds (keeping pl).
Proof.
  destruct pl as [A e mine q k|hs e cl|e cl|l x ob e cl|t id x e k|t id x e k|e]; cbn [placed keeping extra lost app]; try done.
  - by intros (_ & K & g & _ & _ & _ & ? & _).
  - by intros (_ & ? & _).
  - by intros (_ & ? & _).
  - by intros (_ & ? & _).
  - by intros (_ & ?).
  - by intros (_ & ?).
Qed.
Lemma in_delete {A} (x : A) (l : list A) j : x ∈ delete j l -> x ∈ l.
Proof. intros H. eapply elem_of_submseteq; [exact H|apply sublist_submseteq, sublist_delete]. Qed.
Lemma stop_ok e h : h ≡ₚ all_holds e -> placed (Dropping (all_holds e) [] Done) (rels (all_holds e) (PRet tt)) h.
Proof. intros Hh. split; [done|]. split; [by rewrite app_nil_r|done]. Qed.
Lemma keep_begin e cl id : JEntity id ∈ keeping (begin e cl) -> JEntity id ∈ e.
Proof.
  revert e. induction cl as [|o k IH|i k IH|k IH|n k IH|j u v k IH|j u k IH|j u vs k IH|u x k IH|u i x k IH|r x k IH|j o k IH|q k IH|j c k IH|j k IH]; intros e; cbn [begin];
    try (cbn [keeping]; set_solver); try done.
  - destruct (p_call o); try done. apply IH.
  - destruct (e !! j) as [[]|]; cbn [keeping]; set_solver.
  - destruct (e !! j) as [[]|]; cbn [keeping]; set_solver.
  - destruct (e !! j) as [[]|]; try (cbn [keeping]; set_solver). destruct (p_batch lo hi u vs); try done. apply in_delete.
  - destruct (e !! j) as [ob|]; [|cbn [keeping]; set_solver]. destruct (through ob o); cbn [keeping]; set_solver.
  - destruct (e !! j) as [[]|]; cbn [keeping]; set_solver.
  - destruct (e !! j) as [ob|]; [|cbn [keeping]; set_solver]. destruct (obj_holds ob); [|apply in_delete]. intros H. eapply in_delete. by apply IH.
Qed.
Lemma running_bind {A B} (p : prog V A) (k : A -> prog V B) : running p -> running (pbind p k).
Proof. by destruct p. Qed.
Lemma running_open q : running (p_open (V := V) q).
Proof. induction q; try done; cbn [p_open]; by apply running_bind. Qed.
Lemma call_cases (o : op V) : p_call o = PPanic \/ running (p_call o).
Proof. destruct o; try (by left); right; try done; cbn [p_call]; apply running_bind, running_open. Qed.
Lemma batch_cases lo hi t (vs : list V) : p_batch lo hi t vs = PPanic \/ running (p_batch lo hi t vs).
Proof. unfold p_batch. destruct (length vs =? hi - lo); [by right|by left]. Qed.
Lemma above_any hs l : above nolt hs l.
Proof. by intros y _. Qed.
Lemma all_del e j ob : e !! j = Some ob -> all_holds e ≡ₚ obj_holds ob ++ all_holds (delete j e).
Proof. apply all_delete. Qed.
Lemma begin_ok e cl h : h ≡ₚ all_holds e -> placed (begin e cl) (compile e cl) h.
Proof.
  assert (forall A (q : prog V A) k K g e h, running q -> calls e k K g -> sees g q -> h ≡ₚ all_holds e ->
    bal [] q (fun a m => m ++ all_holds e ≡ₚ then_holds (k (Ret a))) -> placed (InCall e [] q k) (catch [] q (fun r _ => K r)) h) as Hin.
  { intros A q k K g e' h' Hr Hc Hs Hh Hb. split; [done|]. exists K, g. done. }
  revert e h. induction cl as [|o k IH|i k IH|k IH|n k IH|j u v k IH|j u k IH|j u vs k IH|u x k IH|u i x k IH|r x k IH|j o k IH|q k IH|j c k IH|j k IH]; intros e h Hh; cbn [begin compile].
  - by apply stop_ok.
  - assert (running (p_call o) -> placed (InCall e [] (p_call o) (fun r => ([], e, k r))) (catch [] (p_call o) (fun r _ => compile e (k r))) h) as Hgo.
    { intros Hr. apply (Hin _ _ _ (fun r => compile e (k r)) (fun _ => None)); [done| |apply sees_none|done|].
      - unfold calls, left_of, then_holds, then_keeps; cbn [fst snd rels]. repeat split; try done; naive_solver.
      - eapply wp_bal. eapply (wp_call w0 nolt False [] (all_holds e)); [by apply any_op|]. intros r. by cbn. }
    revert Hgo. destruct (call_cases o) as [->|Hr]; intros Hgo; [cbn [catch rels]; by apply IH|]. specialize (Hgo Hr). destruct (p_call o); done.
  - apply (Hin _ _ _ (fun r => compile (match r with Ret true => JEntity i :: e | _ => e end) (k r)) (fun b : bool => if b then Some i else None)); [done| |apply sees_entity|done|].
    + unfold calls, left_of, then_holds, then_keeps; cbn [fst snd rels]. repeat split; try done; try naive_solver.
      intros [] id; [|by left]. intros [[= ->]|?]%elem_of_cons; [by right|by left].
    + eapply wp_bal. apply (wp_entity w0 nolt False [] (all_holds e)); [apply above_any|done|done].
  - apply (Hin _ _ _ (fun r => compile (match r with Ret id => JEntity id :: e | _ => e end) (k r)) (fun i => Some i)); [done| |apply sees_new|done|].
    + unfold calls, left_of, then_holds, then_keeps; cbn [fst snd rels]. repeat split; try done; try naive_solver.
      intros i id. intros [[= ->]|?]%elem_of_cons; [by right|by left].
    + eapply wp_bal. apply (wp_new_entity w0 nolt False [] (all_holds e)); [apply above_any|done].
  - apply (Hin _ _ _ (fun r => compile (match r with Ret (lo, hi) => JEntities lo hi :: e | _ => e end) (k r)) (fun _ => None)); [done| |apply sees_none|done|].
    + unfold calls, left_of, then_holds, then_keeps; cbn [fst snd rels]. repeat split; try done; try naive_solver.
      intros [lo hi] id. intros [[=]|?]%elem_of_cons. by left.
    + eapply wp_bal. apply (wp_new_entities w0 nolt False [] (all_holds e)); [apply above_any|]. by intros [lo hi].
  - destruct (e !! j) as [[id|lo hi|?|?|?]|] eqn:Ej; try (by apply stop_ok). pose proof (all_del e j _ Ej) as Hd. cbn [obj_holds] in Hd.
    apply (Hin _ _ _ (fun r => match r with Ret _ => compile e (k r) | _ => PRel LMan false (compile (delete j e) (k r)) end) (fun _ => None)); [done| |apply sees_none|done|].
    + unfold calls, left_of, then_holds, then_keeps; cbn [fst snd rels]. repeat split; try done; try naive_solver. intros id'. apply in_delete.
    + eapply wp_bal. apply (wp_handle_attach w0 nolt False [] (all_holds e)); [apply any_change|done].
  - destruct (e !! j) as [[id|lo hi|?|?|?]|] eqn:Ej; try (by apply stop_ok).
    apply (Hin _ _ _ (fun r => compile e (k r)) (fun _ => None)); [done| |apply sees_none|done|].
    + unfold calls, left_of, then_holds, then_keeps; cbn [fst snd rels]. repeat split; try done; naive_solver.
    + eapply wp_bal. apply (wp_handle_detach w0 nolt False [] (all_holds e)); [apply any_change|done].
  - destruct (e !! j) as [[id|lo hi|?|?|?]|] eqn:Ej; try (by apply stop_ok). pose proof (all_del e j _ Ej) as Hd. cbn [obj_holds] in Hd.
    assert (running (p_batch lo hi u vs) -> placed (InCall e [] (p_batch lo hi u vs) (fun r => match r with Ret _ => ([], e, k r) | _ => ([(LMan, false)], delete j e, k r) end))
      (catch [] (p_batch lo hi u vs) (fun r _ => match r with Ret _ => compile e (k r) | _ => PRel LMan false (compile (delete j e) (k r)) end)) h) as Hgo.
    { intros Hr. apply (Hin _ _ _ (fun r => match r with Ret _ => compile e (k r) | _ => PRel LMan false (compile (delete j e) (k r)) end) (fun _ => None)); [done| |apply sees_none|done|].
      - unfold calls, left_of, then_holds, then_keeps; cbn [fst snd rels]. repeat split; try done; try naive_solver. intros id'. apply in_delete.
      - eapply wp_bal. apply (wp_batch w0 nolt False [] (all_holds e)); [apply above_any|done]. }
    revert Hgo. destruct (batch_cases lo hi u vs) as [->|Hr]; intros Hgo; [cbn [catch rels]; split; [done|]; split; [by rewrite Hh|done]|]. specialize (Hgo Hr). destruct (p_batch lo hi u vs); done.
  - cbn [placed]. done.
  - cbn [placed]. done.
  - cbn [placed]. done.
  - destruct (e !! j) as [ob|] eqn:Ej; [|by apply stop_ok]. destruct (through ob o); [|by apply stop_ok].
    apply (Hin _ _ _ (fun r => compile e (k r)) (fun _ => None)); [done| |apply sees_none|done|].
    + unfold calls, left_of, then_holds, then_keeps; cbn [fst snd rels]. repeat split; try done; naive_solver.
    + cbn [act bal]. intros w _. destruct ((step o w).1); try done. by exists [].
  - pose (K := fun r : outcome (qiter V * list hold) => match r with
        | Ret x => compile (JIter x.1 (qi_init x.1) x.2 :: e) (k (Ret tt))
        | Panic => compile e (k Panic)
        | UB => PUB
        | Block => PHang
        end).
    apply (Hin _ _ _ K (fun _ => None)); [apply running_open| |apply sees_none|done|].
    + unfold calls, left_of, then_holds, then_keeps, K; cbn [fst snd rels]. repeat split; try done; try naive_solver. intros a id [[=]|?]%elem_of_cons. by left.
    + eapply wp_bal. apply (wp_open w0 nolt False q [] (all_holds e)); [apply any_q|done|]. intros J _. unfold then_holds. cbn [fst snd]. by rewrite app_nil_r.
  - destruct (e !! j) as [[id|lo hi|?|?|J st hs]|] eqn:Ej; try (by apply stop_ok). cbn [placed]. rewrite Ej. split; [|split; [done|by do 3 eexists]]. cbn [compile]. by rewrite Ej.
  - destruct (e !! j) as [ob|] eqn:Ej; [|by apply stop_ok]. pose proof (all_del e j _ Ej) as Hd. destruct (obj_holds ob) as [|y hs] eqn:Eo.
    + cbn [rels]. apply IH. by rewrite Hh.
    + split; [done|]. split; [by rewrite Hh|done].
Qed.

Lemma rels_app {A} hs hs' (p : prog V A) : rels hs (rels hs' p) = rels (hs ++ hs') p.
Proof. induction hs as [|[l x] hs IH]; [done|]. cbn [rels app]. by rewrite IH. Qed.
Lemma drop_then_ok hs e cl h : h ≡ₚ hs ++ all_holds e -> placed (drop_then hs e cl) (rels hs (compile e cl)) h.
Proof. intros Hh. destruct hs as [|y hs]; [by apply begin_ok|]. split; [done|]. by split. Qed.
Lemma drop_then_keep hs e cl id : JEntity id ∈ keeping (drop_then hs e cl) -> JEntity id ∈ e.
Proof. destruct hs; [apply keep_begin|done]. Qed.
Lemma catch_resume {A} mine (q : prog V A) e k K g h w' : calls e k K g ->
  sees g q \/ (exists a, q = PRet a /\ forall id, g a = Some id -> exist id w' = Ret true) ->
  h ≡ₚ mine ++ all_holds e -> bal mine q (fun a m => m ++ all_holds e ≡ₚ then_holds (k (Ret a))) ->
  placed (resume e mine q k) (catch mine q (fun r _ => K r)) h /\
  forall id, JEntity id ∈ keeping (resume e mine q k) -> JEntity id ∈ e \/ exist id w' = Ret true.
Proof.
  intros Hc Hs Hh Hb. pose proof Hc as (HK & HKp & Hhp & Hkr & Hkp).
  assert (running q -> placed (InCall e mine q k) (catch mine q (fun r _ => K r)) h /\
    forall id, JEntity id ∈ e -> JEntity id ∈ e \/ exist id w' = Ret true) as Hrun.
  { intros Hr. split; [|by left]. split; [done|]. exists K, g. repeat (split; [done|]). split; [|done].
    destruct Hs as [Hs|(a & -> & _)]; [done|]. by destruct Hr. }
  destruct q as [a| | | |l x q|l x q|B lab f q]; try (by apply Hrun); cbn [resume catch].
  - rewrite (HK a). destruct Hb as (m & Hm & Hm'). specialize (Hkr a). unfold left_of, then_holds, then_keeps in *.
    destruct (k (Ret a)) as [[hs e'] cl]. cbn [fst snd] in *. split.
    + apply drop_then_ok. by rewrite Hh, <- Hm.
    + intros id Hid%drop_then_keep. destruct (Hkr id Hid) as [|Hg]; [by left|right].
      destruct Hs as [Hs|(a' & [= <-] & Hs)]; [cbn [sees] in Hs; by rewrite Hs in Hg|by apply Hs].
  - rewrite HKp. unfold left_of, then_holds, then_keeps in *. destruct (k Panic) as [[hs e'] cl]. cbn [fst snd] in *. split.
    + rewrite rels_app. apply drop_then_ok. by rewrite Hh, Hhp, app_assoc.
    + intros id Hid%drop_then_keep. left. by apply Hkp.
  - split; [|by left]. split; [by left|]. rewrite Hh. by apply submseteq_inserts_l.
  - split; [|by left]. split; [by right|]. rewrite Hh. by apply submseteq_inserts_l.
Qed.
Lemma go_ok pl p h others w h' p' w' : same_shape w0 w -> placed pl p h -> tstep others (Th h p) w = Some (Th h' p', w') ->
  placed (go_on w pl) p' h' /\ forall id, JEntity id ∈ keeping (go_on w pl) -> JEntity id ∈ keeping pl \/ exist id w' = Ret true.
Proof.
  intros Hw Hp Ht. destruct pl as [A e mine q k|hs e cl|e cl|l x ob e cl|t id x e k|t id x e k|e]; cbn [placed] in Hp; cbn [keeping].
  - destruct Hp as (Hr & K & g & -> & Hc & Hs & Hh & Hb). destruct q as [a| | | |l x q|l x q|B lab f q]; try done; cbn [go_on].
    + cbn [catch] in Ht. unfold tstep in Ht. cbn [th_prog th_holds] in Ht. destruct (conflict _ _ _); [done|]. injection Ht as <- <- <-.
      eapply catch_resume; [exact Hc|left; exact Hs| |exact Hb]. by rewrite Hh.
    + cbn [catch] in Ht. unfold tstep in Ht. cbn [th_prog th_holds] in Ht. injection Ht as <- <- <-. destruct Hb as [Hin Hb].
      eapply catch_resume; [exact Hc|left; exact Hs| |exact Hb]. rewrite <- drop_hold_app by done. apply drop_hold_equiv; [|done]. rewrite Hh. apply elem_of_app. by left.
    + cbn [catch] in Ht. unfold tstep in Ht. cbn [th_prog th_holds] in Ht. specialize (Hb w Hw). cbn [sees] in Hs. specialize (Hs w).
      destruct (f w) as [o w1]. cbn [fst snd] in *. destruct o as [b| | |]; injection Ht as <- <- <-.
      * eapply catch_resume; [exact Hc| |done|exact Hb]. destruct (Hs b eq_refl) as [(a & -> & Ha)|Hs']; [right; by exists a|by left].
      * eapply (catch_resume mine PPanic); [exact Hc|by left|done|done].
      * split; [|by left]. split; [by left|]. rewrite Hh. by apply submseteq_inserts_l.
      * split; [|by left]. split; [by right|]. rewrite Hh. by apply submseteq_inserts_l.
  - destruct Hp as (-> & Hh & Hn). destruct hs as [|[l x] hs]; cbn [rels] in Ht.
    + by destruct (Hn eq_refl) as [-> ->].
    + unfold tstep in Ht. cbn [th_prog th_holds] in Ht. injection Ht as <- <- <-. cbn [go_on]. split.
      * apply drop_then_ok. by apply drop_hold_cons.
      * intros id Hid%drop_then_keep. by left.
  - destruct Hp as (-> & Hh & Hcl). destruct cl as [|o k|i k|k|n k|j u v k|j u k|j u vs k|u x k|u i x k|r x k|j o k|q k|j c k|j k]; try done; cbn [compile] in Ht; unfold tstep in Ht; cbn [th_prog th_holds] in Ht; cbn [go_on].
    + destruct (has_registered u w); injection Ht as <- <- <-; [split; [done|by left]|]. split; [by apply begin_ok|]. intros id Hid%keep_begin. by left.
    + destruct (has_registered u w); injection Ht as <- <- <-; [split; [done|by left]|]. split; [by apply begin_ok|]. intros id Hid%keep_begin. by left.
    + destruct (has_res r w); injection Ht as <- <- <-; [split; [done|by left]|]. split; [by apply begin_ok|]. intros id Hid%keep_begin. by left.
    + destruct Hcl as (J & st & hs & Ej). rewrite Ej in Ht |- *. cbn [th_prog th_holds] in Ht. destruct (run_call J (own_writes hs c) (w, st)) as [o [w1 st1]].
      injection Ht as <- <- <-. cbn [fst snd].
      assert (all_holds (<[j := JIter J st1 hs]> e) = all_holds e) as Ha.
      { unfold all_holds. f_equal. rewrite list_fmap_insert. cbn [obj_holds]. apply list_insert_id. by rewrite list_lookup_fmap, Ej. }
      assert (forall o', placed (begin (<[j:=JIter J st1 hs]> e) (k o')) (compile (<[j:=JIter J st1 hs]> e) (k o')) h /\
        forall id, JEntity id ∈ keeping (begin (<[j:=JIter J st1 hs]> e) (k o')) -> JEntity id ∈ e \/ exist id w1 = Ret true) as Hgo.
      { intros o'. split; [apply begin_ok; by rewrite Ha|]. intros id Hid%keep_begin. left.
        apply elem_of_list_lookup in Hid as [m Hm]. destruct (decide (m = j)) as [->|Hne].
        - rewrite list_lookup_insert in Hm by (by eapply lookup_lt_Some). done.
        - rewrite list_lookup_insert_ne in Hm by done. by eapply elem_of_list_lookup_2. }
      destruct o; [apply Hgo|apply Hgo| |]; (split; [|by left]); cbn [placed]; (split; [auto|by rewrite Hh]).
  - destruct Hp as (-> & Hh & Ho & Hne). unfold tstep in Ht. cbn [th_prog th_holds] in Ht. destruct (conflict _ _ _); [done|]. injection Ht as <- <- <-. cbn [go_on]. split.
    + apply begin_ok. unfold all_holds. cbn [map concat]. rewrite Ho. cbn [app]. by rewrite Hh.
    + intros id Hid%keep_begin. apply elem_of_cons in Hid as [Hid|Hid]; [|by left]. by destruct (Hne id).
  - destruct Hp as (-> & Hh). unfold tstep in Ht. cbn [th_prog th_holds] in Ht. destruct (conflict _ _ _); [done|]. injection Ht as <- <- <-. cbn [go_on keeping placed].
    split; [|by left]. split; [done|]. by rewrite Hh.
  - destruct Hp as (-> & Hh). unfold tstep in Ht. cbn [th_prog th_holds] in Ht. cbn [go_on]. destruct (storage_has w id t); injection Ht as <- <- <-.
    + split; [by apply begin_ok|]. intros id' Hid%keep_begin. apply elem_of_cons in Hid as [[=]|Hid]. by left.
    + split; [|by left]. split; [done|]. by split.
  - destruct Hp as [[-> | ->] _]; done.
Qed.

End keep.
Section keep2.
Context {V : Type}.
Implicit Types (w : world V) (cs : list (client V)) (c : conf V).

Lemma walk_snoc i pl sched j c c1 c2 : run sched c = Some c1 -> cstep j c1 = Some c2 ->
  walk i pl (sched ++ [j]) c = if decide (j = i) then go_on (cf_world c1) (walk i pl sched c) else walk i pl sched c.
Proof.
  revert pl c. induction sched as [|m sched IH]; intros pl c Hr Hc; cbn [run app walk] in *.
  - injection Hr as <-. by rewrite Hc.
  - destruct (cstep m c) as [c'|]; [|done]. by apply IH.
Qed.
Lemma exist_em_eq w1 w2 id : w_em w1 = w_em w2 -> exist id w1 = exist id w2.
Proof. unfold exist. by intros ->. Qed.
Lemma keep_inv w cs sched c i cl : run sched (start w cs) = Some c -> cs !! i = Some cl ->
  exists th, cf_threads c !! i = Some th /\ placed w (place_of i sched w cs) (th_prog th) (th_holds th) /\
    forall id, JEntity id ∈ kept_by i sched w cs -> exist id (cf_world c) = Ret true.
Proof.
  intros Hr Hi. unfold kept_by, place_of. rewrite Hi. revert c Hr. induction sched as [|j sched IH] using rev_ind; intros c Hr.
  - cbn [run] in Hr. injection Hr as <-. cbn [walk start cf_threads cf_world]. exists (Th [] (compile [] cl)).
    split; [by rewrite list_lookup_fmap, Hi|]. split; [by apply begin_ok|]. intros id Hid%keep_begin. by apply elem_of_nil in Hid.
  - rewrite <- run_app in Hr. destruct (run sched (start w cs)) as [c1|] eqn:Hr1; [|done]. cbn [mbind option_bind run] in Hr.
    destruct (cstep j c1) as [c2|] eqn:Ec; [|done]. injection Hr as <-. destruct (IH c1 eq_refl) as (th & Hth & Hp & Hal).
    rewrite (walk_snoc i (begin [] cl) sched j _ c1 c2 Hr1 Ec). set (pl := walk i (begin [] cl) sched (start w cs)) in *.
    assert (reaches w cs c1) as HR by (by exists sched). apply reach_any in HR.
    assert (forall id, JEntity id ∈ keeping pl -> exist id (cf_world c2) = Ret true) as Hold.
    { intros id Hid. rewrite <- (Hal id Hid). apply exist_em_eq. symmetry.
      assert ((LMan, false) ∈ th_holds th) as Hg.
      { eapply elem_of_submseteq; [|exact (placed_holds _ _ _ _ Hp)]. unfold all_holds. apply elem_of_list_In, in_concat.
        exists [(LMan, false)]. split; [|by left]. change [(LMan, false)] with (obj_holds (V := V) (JEntity id)). apply in_map. by apply elem_of_list_In. }
      change (part_eq LMan (cf_world c1) (cf_world c2)). destruct (decide (j = i)) as [->|Hji].
      - eapply step_frame; [exact HR|exact Hth|exact Ec|]. intros Hx.
        pose proof (excl_perm _ _ (locks_split c1 i th Hth) (ci_excl _ _ _ c1 HR)) as He.
        apply elem_of_Permutation in Hg as [m Hm]. rewrite Hm in Hx. apply elem_of_cons in Hx as [[=]|Hx].
        apply elem_of_Permutation in Hx as [m' Hm']. rewrite Hm' in Hm.
        destruct (He LMan false true (m' ++ holds_of_others i (cf_threads c1))) as [_ ?]; [|done]. by rewrite Hm.
      - by eapply (step_protect w nolt False j i c1 c2 th LMan false). }
    destruct (decide (j = i)) as [->|Hji].
    + unfold cstep in Ec. rewrite Hth in Ec. destruct (tstep _ th (cf_world c1)) as [[[h' p'] w']|] eqn:Et; [|done]. injection Ec as <-.
      cbn [cf_threads cf_world] in *. exists (Th h' p'). split; [apply list_lookup_insert; by eapply lookup_lt_Some|]. destruct th as [h p]. cbn [th_prog th_holds] in *.
      destruct (go_ok w pl p h _ (cf_world c1) h' p' w' (ci_shape _ _ _ c1 HR) Hp Et) as [Hp' Hk]. split; [done|].
      intros id Hid. destruct (Hk id Hid); [by apply Hold|done].
    + exists th. split; [by rewrite (step_other j i c1 c2 Hji Ec)|]. by split.
Qed.
End keep2.

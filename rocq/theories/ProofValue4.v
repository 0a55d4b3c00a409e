(** Values and threads that make calls one after the other: what each thread
    gave and got (C52). *)
From stdpp Require Import prelude list gmap.
From Verif Require Import Base Api ModelSparse ModelEntity ModelGroup ModelWorld ModelQuery ModelStep ModelConc
  Spec History SpecValue SpecValue2 SpecConc SpecApart ProofValue ProofValue3 ProofLin2 ProofApart4 ProofConc11.

Section log.
Context {V : Type}.
Variable t : nat.
Implicit Types (w : world V) (H : list V) (c : conf V) (cl : client V) (ph : phase (V := V)).
Definition plain cl : Prop := calls_only cl /\ no_in_place cl.
Definition phase_ok H ph : Prop :=
  match ph with
  | Idle => H = []
  | Busy o k mine p => running p /\ acc t (Qc t o []) H p /\ forall r, plain (k r)
  | Unwinding o k hs => hs <> [] /\ H = [] /\ forall r, plain (k r)
  end.
Definition prog_ok H ph (p : prog V unit) : Prop := phase_ok H ph /\ p = prog_of ph.
Lemma enter_ok cl : plain cl -> phase_ok (underway t (enter cl)) (enter cl) /\ prog_of (enter cl) = compile [] cl.
Proof.
  intros [Hc Hn]. destruct cl as [|o k| | | | | | | | | | | | |]; try done. cbn [enter underway]. split; [|done]. split; [by eapply running_shared|].
  destruct Hc as [Ho Hc], Hn as [Hi Hn]. split; [|split; [apply Hc|apply Hn]]. pose proof (acc_call t o [] Hi) as Ha. by rewrite app_nil_r in Ha.
Qed.
Lemma settle_ok o k mine p H : acc t (Qc t o []) H p -> (forall r, plain (k r)) ->
  exists H', phase_ok H' (settle (Busy o k mine p)).2 /\ prog_of (settle (Busy o k mine p)).2 = catch mine p (fun r _ => compile [] (k r)) /\
    all_returned t (settle (Busy o k mine p)).1 ++ H' ++ given t (o, Panic) ⊆+ H ++ all_given t (settle (Busy o k mine p)).1 ++ underway t (settle (Busy o k mine p)).2.
Proof.
  intros Ha Hk. assert (running p -> settle (Busy o k mine p) = ([], Busy o k mine p)) as Hrun by (destruct mine, p; done).
  assert (running p -> exists H', phase_ok H' (Busy o k mine p) /\ prog_of (Busy o k mine p) = catch mine p (fun r _ => compile [] (k r)) /\
    all_returned t [] ++ H' ++ given t (o, Panic) ⊆+ H ++ all_given t [] ++ underway t (Busy o k mine p)) as Hgo.
  { intros Hr. exists H. split; [done|]. split; [done|]. done. }
  destruct p as [a| | | |lk x p|lk x p|B lab f p]; try (rewrite (Hrun I); by apply Hgo).
  - assert (settle (Busy o k mine (PRet a)) = ([(o, Ret a)], enter (k (Ret a)))) as -> by (by destruct mine). cbn [fst snd]. destruct (enter_ok (k (Ret a))) as [He Hp]; [done|].
    exists (underway t (enter (k (Ret a)))). split; [done|]. split; [done|]. unfold all_returned, all_given. cbn [mbind list_bind]. rewrite !app_nil_r.
    cbn [acc] in Ha. unfold Qc in Ha. cbn [app] in Ha. rewrite (Permutation_app_comm (underway _ _)). apply submseteq_app; [done|]. done.
  - destruct mine as [|y mine].
    + cbn [settle fst snd]. destruct (enter_ok (k Panic)) as [He Hp]; [done|]. exists (underway t (enter (k Panic))). split; [done|]. split; [done|].
      unfold all_returned, all_given. cbn [mbind list_bind]. rewrite !app_nil_r. rewrite returned_panic. cbn [app]. rewrite (Permutation_app_comm (underway _ _)). by apply submseteq_inserts_l.
    + cbn [settle fst snd underway]. exists []. split; [done|]. split; [done|]. cbn. by apply submseteq_inserts_l.
Qed.
Lemma move_ok others th w th' w' H ph : prog_ok H ph (th_prog th) -> tstep others th w = Some (th', w') ->
  exists H', prog_ok H' (move w ph).2 (th_prog th') /\
    held t w' ++ all_returned t (move w ph).1 ++ H' ++ underway t ph ⊆+ held t w ++ H ++ all_given t (move w ph).1 ++ underway t (move w ph).2.
Proof.
  intros [Hph Hpr] Hs. unfold tstep in Hs. rewrite Hpr in Hs. destruct ph as [|o k mine p|o k hs]; [done|..].
  - destruct Hph as (Hr & Ha & Hk). cbn [prog_of] in Hs. destruct p as [a| | | |lk x p|lk x p|B lab f p]; try done; cbn [catch] in Hs; cbn [move underway].
    + destruct (conflict (th_holds th ++ others) lk x); [done|]. injection Hs as <- <-. cbn [th_prog].
      destruct (settle_ok o k ((lk, x) :: mine) p H Ha Hk) as (H' & H1 & H2 & H3). exists H'. split; [split; done|]. by apply submseteq_app.
    + injection Hs as <- <-. cbn [th_prog]. destruct (settle_ok o k (drop_hold lk x mine) p H Ha Hk) as (H' & H1 & H2 & H3). exists H'. split; [split; done|]. by apply submseteq_app.
    + cbn [acc] in Ha. destruct (Ha w) as (H1 & Hle & Hq). destruct (f w) as [r w1]. cbn [fst snd] in *. injection Hs as <- <-. cbn [th_prog].
      assert (forall q, acc t (Qc t o []) H1 q -> exists H', prog_ok H' (settle (Busy o k mine q)).2 (catch mine q (fun r _ => compile [] (k r))) /\
        held t w1 ++ all_returned t (settle (Busy o k mine q)).1 ++ H' ++ given t (o, Panic) ⊆+ held t w ++ H ++ all_given t (settle (Busy o k mine q)).1 ++ underway t (settle (Busy o k mine q)).2) as Hx.
      { intros q Hq'. destruct (settle_ok o k mine q H1 Hq' Hk) as (H' & E1 & E2 & E3). exists H'. split; [split; done|]. rewrite (app_assoc (held t w) H). transitivity ((held t w1 ++ H1) ++ all_given t (settle (Busy o k mine q)).1 ++ underway t (settle (Busy o k mine q)).2); [|by apply submseteq_app].
        rewrite <- app_assoc. by apply submseteq_app. }
      destruct r as [b| | |]; [apply (Hx (p b)); exact Hq|apply (Hx PPanic); exact Hq|apply (Hx PUB); exact I|apply (Hx PHang); exact I].
  - destruct Hph as (Hne & -> & Hk). destruct hs as [|[lk x] hs]; [done|]. cbn [prog_of rels] in Hs. injection Hs as <- <-. cbn [th_prog move underway].
    destruct hs as [|y hs].
    + cbn [settle fst snd]. destruct (enter_ok (k Panic)) as [He Hp]; [done|]. exists (underway t (enter (k Panic))). split; [by split|].
      unfold all_returned, all_given. cbn [mbind list_bind]. rewrite !app_nil_r. rewrite returned_panic. cbn [app]. apply submseteq_app; [done|]. by rewrite (Permutation_app_comm (underway _ _)).
    + cbn [settle fst snd underway]. exists []. split; [by split|]. done.
Qed.

(** sums over the threads *)
Lemma swap_front (x y l l' : list V) : l ≡ₚ x ++ l' -> y ++ l ≡ₚ x ++ y ++ l'.
Proof. intros ->. rewrite !app_assoc. f_equiv. apply Permutation_app_comm. Qed.
Ltac front x l := lazymatch l with
  | x ++ _ => reflexivity
  | _ ++ ?l' => apply swap_front; front x l'
  | x => by rewrite app_nil_r
  end.
Ltac perm := rewrite <- ?app_assoc; repeat (lazymatch goal with
  | |- ?x ++ _ ≡ₚ ?l => let l' := fresh in evar (l' : list V); let E := fresh in assert (l ≡ₚ x ++ l') as E by (unfold l'; front x l); rewrite E; unfold l'; clear E l'; apply Permutation_app_head
  end); rewrite ?app_nil_r; reflexivity.
Lemma tot_change {A} (f g : nat -> list V) (l : list A) i : i < length l -> (forall j, j <> i -> g j = f j) ->
  concat (imap (fun j _ => g j) l) ++ f i ≡ₚ concat (imap (fun j _ => f j) l) ++ g i.
Proof.
  revert f g i. induction l as [|a l IH]; intros f g i Hi Hg; [simpl in Hi; lia|]. cbn [imap concat].
  destruct i as [|i].
  - assert (imap ((fun j (_ : A) => g j) ∘ S) l = imap ((fun j (_ : A) => f j) ∘ S) l) as ->. { apply imap_ext. intros j x _. cbn. by apply Hg. }
    rewrite <- !app_assoc. rewrite (Permutation_app_comm (g 0)), (Permutation_app_comm (f 0)), <- !app_assoc. f_equiv. apply Permutation_app_comm.
  - rewrite (Hg 0) by done. rewrite <- !app_assoc. f_equiv. apply (IH (fun j => f (S j)) (fun j => g (S j))); [simpl in Hi; lia|]. intros j Hj. apply Hg. lia.
Qed.
Context (w0 : world V) (cs : list (client V)).
Hypothesis (Hcs : Forall plain cs).
Definition gotten sched i : list (event V) := match cs !! i with Some cl => (follow i (enter cl) sched (start w0 cs)).1 | None => [] end.
Definition now sched i : phase := match cs !! i with Some cl => (follow i (enter cl) sched (start w0 cs)).2 | None => Idle end.
Definition tot (f : nat -> list V) : list V := concat (imap (fun i _ => f i) cs).
Definition linv sched c : Prop := exists Hs : nat -> list V,
  (forall i cl, cs !! i = Some cl -> exists th, cf_threads c !! i = Some th /\ prog_ok (Hs i) (now sched i) (th_prog th)) /\
  length (cf_threads c) = length cs /\
  held t (cf_world c) ++ tot (fun i => all_returned t (gotten sched i)) ++ tot Hs ⊆+
    held t w0 ++ tot (fun i => all_given t (gotten sched i)) ++ tot (fun i => underway t (now sched i)).
Lemma linv_start : linv [] (start w0 cs).
Proof.
  exists (fun i => underway t (now [] i)). split; [|split].
  - intros i cl Hi. exists (Th [] (compile [] cl)). split; [cbn [start cf_threads]; by rewrite list_lookup_fmap, Hi|]. unfold now. rewrite Hi. cbn [follow snd th_prog].
    destruct (enter_ok cl) as [H1 H2]; [by eapply Forall_lookup_1|]. by split.
  - cbn [start cf_threads]. apply fmap_length.
  - cbn [start cf_world]. assert (forall i, gotten [] i = []) as Hg. { intros i. unfold gotten. by destruct (cs !! i). }
    assert (forall g : event V -> list V, tot (fun i => gotten [] i ≫= g) = []) as Hz.
    { intros g. unfold tot. assert (forall (l : list (client V)) (f : nat -> list V), (forall i, f i = []) -> concat (imap (fun i _ => f i) l) = []) as Hx.
      { induction l as [|a l IH]; intros f Hf; [done|]. cbn [imap concat]. rewrite Hf. apply (IH (fun i => f (S i))). intros i. apply Hf. }
      apply Hx. intros i. by rewrite Hg. }
    unfold all_returned, all_given. by rewrite !Hz.
Qed.
Lemma sub_cancel (a b x : list V) : a ++ x ⊆+ b ++ x -> a ⊆+ b.
Proof.
  intros Hx. apply submseteq_Permutation in Hx as (k & Hk). assert (b ≡ₚ a ++ k) as ->; [|by apply submseteq_inserts_r].
  apply (Permutation_app_inv_r x). rewrite Hk, <- !app_assoc. f_equiv. apply Permutation_app_comm.
Qed.
Lemma budget (a a0 z R R' r r1 G G' g g1 U U' u u' Hb Hb' h h' : list V) :
  R' ++ r ≡ₚ R ++ r ++ r1 -> G' ++ g ≡ₚ G ++ g ++ g1 -> U' ++ u ≡ₚ U ++ u' -> Hb' ++ h ≡ₚ Hb ++ h' ->
  a0 ++ R ++ Hb ⊆+ z ++ G ++ U -> a ++ r1 ++ h' ++ u ⊆+ a0 ++ h ++ g1 ++ u' -> a ++ R' ++ Hb' ⊆+ z ++ G' ++ U'.
Proof.
  intros T1 T2 T3 T4 Hle Hle'. apply (sub_cancel _ _ (r ++ g ++ u ++ h ++ a0)).
  assert ((a ++ R' ++ Hb') ++ r ++ g ++ u ++ h ++ a0 ≡ₚ a ++ (R' ++ r) ++ (Hb' ++ h) ++ g ++ u ++ a0) as -> by perm.
  assert ((z ++ G' ++ U') ++ r ++ g ++ u ++ h ++ a0 ≡ₚ z ++ (G' ++ g) ++ (U' ++ u) ++ r ++ h ++ a0) as -> by perm.
  rewrite T1, T2, T3, T4.
  assert (a ++ (R ++ r ++ r1) ++ (Hb ++ h') ++ g ++ u ++ a0 ≡ₚ (a0 ++ R ++ Hb) ++ (a ++ r1 ++ h' ++ u) ++ r ++ g) as -> by perm.
  assert (z ++ (G ++ g ++ g1) ++ (U ++ u') ++ r ++ h ++ a0 ≡ₚ (z ++ G ++ U) ++ (a0 ++ h ++ g1 ++ u') ++ r ++ g) as -> by perm.
  repeat (apply submseteq_app; [done|]). done.
Qed.
Lemma linv_step sched c j c' : run sched (start w0 cs) = Some c -> linv sched c -> cstep j c = Some c' -> linv (sched ++ [j]) c'.
Proof.
  intros Hr (Hs & Hth & Hlen & Hle) Hc. pose proof Hc as Hc0. unfold cstep in Hc. destruct (cf_threads c !! j) as [th|] eqn:Ej; [|done].
  destruct (tstep (holds_of_others j (cf_threads c)) th (cf_world c)) as [[th' w']|] eqn:Et; [|done]. injection Hc as <-.
  assert (j < length cs) as Hj by (rewrite <- Hlen; by eapply lookup_lt_Some). destruct (lookup_lt_is_Some_2 _ _ Hj) as [cl Hcl].
  destruct (Hth j cl Hcl) as (th0 & E0 & Hp). rewrite Ej in E0. injection E0 as <-. destruct (move_ok _ _ _ _ _ _ _ Hp Et) as (H' & Hp' & Hle').
  assert (forall i, i <> j -> gotten (sched ++ [j]) i = gotten sched i /\ now (sched ++ [j]) i = now sched i) as Hne.
  { intros i Hi. unfold gotten, now. destruct (cs !! i) as [cli|]; [|done]. rewrite (follow_snoc i _ _ _ _ _ _ Hr Hc0). cbn zeta. rewrite decide_False by done. cbn [fst snd]. by rewrite app_nil_r. }
  assert (gotten (sched ++ [j]) j = gotten sched j ++ (move (cf_world c) (now sched j)).1 /\ now (sched ++ [j]) j = (move (cf_world c) (now sched j)).2) as [Hg Hn].
  { unfold gotten, now. rewrite Hcl. rewrite (follow_snoc j _ _ _ _ _ _ Hr Hc0). cbn zeta. rewrite decide_True by done. done. }
  exists (fun i => if decide (i = j) then H' else Hs i). split; [|split].
  - intros i cli Hi. cbn [cf_threads]. destruct (decide (i = j)) as [->|Hij].
    + exists th'. split; [apply list_lookup_insert; by rewrite Hlen|]. by rewrite Hn.
    + destruct (Hth i cli Hi) as (thi & Hthi & Hpi). exists thi. split; [by rewrite list_lookup_insert_ne|]. by rewrite (proj2 (Hne i Hij)).
  - cbn [cf_threads]. by rewrite insert_length.
  - cbn [cf_world].
    pose proof (tot_change (fun i => all_returned t (gotten sched i)) (fun i => all_returned t (gotten (sched ++ [j]) i)) cs j Hj) as T1.
    pose proof (tot_change (fun i => all_given t (gotten sched i)) (fun i => all_given t (gotten (sched ++ [j]) i)) cs j Hj) as T2.
    pose proof (tot_change (fun i => underway t (now sched i)) (fun i => underway t (now (sched ++ [j]) i)) cs j Hj) as T3.
    pose proof (tot_change Hs (fun i => if decide (i = j) then H' else Hs i) cs j Hj) as T4.
    cbn beta in *. rewrite decide_True in T4 by done.
    specialize (T1 ltac:(intros i Hi; by rewrite (proj1 (Hne i Hi)))). specialize (T2 ltac:(intros i Hi; by rewrite (proj1 (Hne i Hi)))).
    specialize (T3 ltac:(intros i Hi; by rewrite (proj2 (Hne i Hi)))). specialize (T4 ltac:(intros i Hi; by rewrite decide_False)).
    rewrite Hg in T1, T2. rewrite Hn in T3. unfold all_returned in T1 at 4. unfold all_given in T2 at 4. rewrite bind_app in T1, T2.
    fold (all_returned t (gotten sched j)) in T1. fold (all_given t (gotten sched j)) in T2.
    fold (all_returned t (move (cf_world c) (now sched j)).1) in T1. fold (all_given t (move (cf_world c) (now sched j)).1) in T2.
    unfold tot in *. eapply budget; [exact T1|exact T2|exact T3|exact T4|exact Hle|exact Hle'].
Qed.
Lemma linv_run sched c : run sched (start w0 cs) = Some c -> linv sched c.
Proof.
  revert c. induction sched as [|j sched IH] using rev_ind; intros c Hr; [injection Hr as <-; apply linv_start|].
  rewrite <- run_app in Hr. destruct (run sched (start w0 cs)) as [cm|] eqn:E; [|done]. cbn [mbind option_bind run] in Hr. destruct (cstep j cm) as [c1|] eqn:E1; [|done]. injection Hr as ->.
  eapply linv_step; [exact E|by apply IH|exact E1].
Qed.
End log.

(** C43, C44, C50: threads that divide the entities among themselves (the
    discipline of C40, [minds], SpecApart.v) get the answers they would get
    alone.
    [got ops cs sched i]: the calls of thread [i] that were answered, with
    their answers; [own_after shared mine h]: the entities that are the
    thread's own after its calls [h], if [mine] were at the start;
    [own_value h0 h t id]: the component [t] of its entity [id] after them,
    [h0] being the history of the world before the threads started. *)
From stdpp Require Import prelude list gmap.
From Verif Require Import Base Api ModelSparse ModelEntity ModelGroup ModelWorld ModelQuery ModelStep ModelConc SpecConc
  Spec History Rules Samples SpecApart ProofSparse ProofEntity ProofWorld ProofOps ProofRemove ProofWf ProofMain ProofHistory ProofHistory2 PropEntity
  ProofConc ProofConc4 ProofConc8 ProofConc10 ProofLin2 ProofEm PropLin ProofApart ProofApart2 ProofApart3 ProofApart4 PropConc2 PropApart.

Section own.
Context {V : Type}.
Local Notation event := (op V * outcome (out V))%type.
Implicit Types (ops : list (op V)) (cs : list (client V)) (c : conf V) (own : nat -> gset nat) (shared kept : nat -> bool) (cl : client V).

(** Thread [i] is in the middle of removing [id]. *)
Definition removing cl (h : list event) (id : nat) : Prop := exists ord k, rest cl h = Call (RemoveEntity id ord) k.

Lemma own_fol ops shared kept still own cs sched c (watched : nat -> bool) : rules ops ->
  divided shared kept (alive (seen ops)) own ->
  (forall n cl, cs !! n = Some cl -> minds (after ops) shared kept still (own n) knows_nothing [] cl) ->
  (forall n cl, cs !! n = Some cl -> watched n = true -> calls_only cl) ->
  run sched (start (after ops) cs) = Some c ->
  exists γ aw, WI (after ops) shared kept still (left_at ops (after ops)) (bare_dead (after ops) shared kept (seen ops)) γ (cf_world c) aw /\
    cover shared (unowned ops own (length cs)) (length cs) γ (cf_world c) /\
    forall n cl, cs !! n = Some cl -> watched n = true ->
      made cl (got ops cs sched n) /\ right_answers (after ops) shared kept still (bare_dead (after ops) shared kept (seen ops)) own (seen ops) n (got ops cs sched n) /\
      minds (after ops) shared kept still (own_after shared (own n) (got ops cs sched n)) (bare_after (got ops cs sched n)) [] (rest cl (got ops cs sched n)) /\
      (forall id, id ∈ own_after shared (own n) (got ops cs sched n) -> id ∈ g_mine (γ n) \/ removing cl (got ops cs sched n) id) /\
      (rest cl (got ops cs sched n) = Done -> base (after ops) shared kept still (bare_dead (after ops) shared kept (seen ops)) own (seen ops) n (γ n) (got ops cs sched n)).
Proof.
  intros L Hd Hcs Hwat Hr. assert (forall e, shared e = true -> kept e = true) as Hsk by apply Hd.
  pose proof (FI_start ops shared kept still own cs watched L Hd Hcs Hwat) as H0.
  assert (forall i k a b, group_head i (after ops) = Some (k, a, b) -> has_registered a (after ops) = true /\ has_registered b (after ops) = true) as HT by (destruct (reached ops L) as [H _]; intros j k a b Hh; by eapply R_types).
  destruct (FI_run _ _ _ _ _ _ Hsk HT own _ _ _ cs watched eq_refl sched c H0 Hr) as (_ & _ & γ & aw & [Hw Hcv] & _ & _ & Ht).
  exists γ, aw. split; [exact Hw|]. split; [exact Hcv|]. intros n cl Hn Hwn. destruct (Ht n cl Hn) as (th & _ & Hok). unfold thread_ok in Hok. rewrite Hwn in Hok. destruct Hok as [Hf _].
  unfold got. rewrite Hn. destruct (follow n (enter cl) sched (start (after ops) cs)) as [ans ph]. cbn [fst snd] in *. destruct Hf as (Hmade & _ & Hm & Hra & Hf).
  split; [done|]. split; [done|]. split; [done|]. split; [|intros Hdone; destruct ph; [apply Hf|destruct Hf as (_ & Hf & _); congruence|destruct Hf as (_ & Hf & _); congruence]].
  intros id Hid. destruct ph as [|o k m p|o k hs].
  - left. destruct Hf as (_ & _ & B & _). by rewrite B.
  - destruct Hf as (_ & Hrest & g1 & (_ & B & _) & _ & K & _). rewrite <- B in Hid.
    destruct o; try (left; apply K; [done|]; by intros [? ?]). destruct (decide (id0 = id)) as [->|Hne]; [right; by eexists _, _|left]. apply K; [done|]. intros [ord' E]. by injection E as -> _.
  - destruct Hf as (_ & Hrest & g1 & (_ & B & _) & K & _). rewrite <- B in Hid.
    destruct o; try (left; apply K; [done|]; by intros [? ?]). destruct (decide (id0 = id)) as [->|Hne]; [right; by eexists _, _|left]. apply K; [done|]. intros [ord' E]. by injection E as -> _.
Qed.

Lemma minds_made w shared kept still cl : forall mine bare e (h : list event), minds w shared kept still mine bare e cl -> made cl h ->
  (forall l o r l', h = l ++ (o, r) :: l' -> fair w (own_after shared mine l) o r) ->
  forall l o r l', h = l ++ (o, r) :: l' -> op_apart w shared kept still (own_after shared mine l) o.
Proof.
  intros mine bare e h. revert cl mine bare e. induction h as [|[o r] h IH]; intros cl mine bare e Hm Hh Hf l o' r' l' E; [by destruct l|].
  destruct cl as [|o1 k| | | | | | | | | | | | |]; try done. destruct Hm as [Ha Hm], Hh as [-> Hh]. destruct l as [|ev l].
  - by injection E as <- <- <-.
  - injection E as <- E. change (own_after shared mine ((o, r) :: l)) with (own_after shared (own_next shared mine o r) l). eapply (IH (k r) _ _ e); [|done| |exact E].
    + apply Hm. exact (Hf [] o r _ eq_refl).
    + intros l1 o2 r2 l2 E2. rewrite E2 in Hf. apply (Hf ((o, r) :: l1) o2 r2 l2). done.
Qed.
Lemma own_again shared mine (h1 h2 : list event) id : id ∉ own_after shared mine h1 -> id ∈ own_after shared mine (h1 ++ h2) -> id ∈ h2 ≫= handed_ev.
Proof.
  induction h2 as [|[o r] h2 IH] using rev_ind; intros H1 H2; [by rewrite app_nil_r in H2|]. rewrite app_assoc, own_after_snoc in H2. rewrite bind_app. apply elem_of_app.
  apply own_next_in in H2 as [H2|H2]; [left; by apply IH|right]. cbn. by rewrite app_nil_r.
Qed.

(** C43, for such threads.  Every creation returns; the ids are non-zero and
    not among the entities the thread has.  The entities a thread has exist,
    and no two threads have the same, except that a thread still has the
    entity it is in the middle of removing.
    Missing from C43: threads that keep no discipline, for which it is false
    (C43_create_panics_refuted, C43_shared_id_refuted). *)
Theorem C43_own_partial ops shared kept still own cs sched c i cl : rules ops ->
  divided shared kept (alive (seen ops)) own ->
  (forall n cl, cs !! n = Some cl -> minds (after ops) shared kept still (own n) knows_nothing [] cl) ->
  run sched (start (after ops) cs) = Some c ->
  cs !! i = Some cl -> calls_only cl ->
  (forall l o r l', got ops cs sched i = l ++ (o, r) :: l' ->
     (o = CreateEntity -> exists id, r = Ret (OId id) /\ id <> 0 /\ id ∉ own_after shared (own i) l) /\
     (forall n, o = CreateEntities n -> exists lo, r = Ret (ORange lo (lo + n)) /\ lo <> 0 /\ forall id, lo <= id < lo + n -> id ∉ own_after shared (own i) l)) /\
  (forall id, id ∈ own_after shared (own i) (got ops cs sched i) ->
     (step (Exist id) (cf_world c)).1 = Ret (OBool true) \/ removing cl (got ops cs sched i) id) /\
  (forall j cl' id, j <> i -> cs !! j = Some cl' -> calls_only cl' ->
     id ∈ own_after shared (own i) (got ops cs sched i) -> id ∈ own_after shared (own j) (got ops cs sched j) ->
     removing cl (got ops cs sched i) id \/ removing cl' (got ops cs sched j) id).
Proof.
  intros L Hd Hcs Hr Hi Hcl. split; [|split].
  - destruct (own_fol ops shared kept still own cs sched c (fun n => bool_decide (n = i)) L Hd Hcs) as (γ & aw & Hw & Hcv & H); [|done|].
    { intros n cl' Hn E%bool_decide_eq_true. subst n. by assert (cl' = cl) as -> by congruence. }
    destruct (H i cl Hi) as (_ & Hra & _); [by rewrite bool_decide_eq_true|]. intros l o r l' E. destruct (Hra l o r l' E) as [Hf _]. split.
    + intros ->. exact Hf.
    + intros n ->. exact Hf.
  - destruct (own_fol ops shared kept still own cs sched c (fun n => bool_decide (n = i)) L Hd Hcs) as (γ & aw & Hw & Hcv & H); [|done|].
    { intros n cl' Hn E%bool_decide_eq_true. subst n. by assert (cl' = cl) as -> by congruence. }
    destruct (H i cl Hi) as (_ & _ & _ & Ho & _); [by rewrite bool_decide_eq_true|]. intros id Hid. destruct (Ho id Hid) as [Hm|Hm]; [left|by right].
    pose proof (wi_own _ _ _ _ _ _ _ _ _ Hw i id Hm) as Hl. pose proof (live_exist _ _ id (wi_R _ _ _ _ _ _ _ _ _ Hw) Hl) as He.
    cbn [step]. unfold fmapM, bind, get, lift, ret. by rewrite He.
  - intros j cl' id Hji Hj Hcl' Hid1 Hid2.
    destruct (own_fol ops shared kept still own cs sched c (fun n => bool_decide (n = i \/ n = j)) L Hd Hcs) as (γ & aw & Hw & Hcv & H); [|done|].
    { intros n cl0 Hn [E|E]%bool_decide_eq_true; subst n; [by assert (cl0 = cl) as -> by congruence|by assert (cl0 = cl') as -> by congruence]. }
    destruct (H i cl Hi) as (_ & _ & _ & Ho1 & _); [rewrite bool_decide_eq_true; by left|]. destruct (H j cl' Hj) as (_ & _ & _ & Ho2 & _); [rewrite bool_decide_eq_true; by right|].
    destruct (Ho1 id Hid1) as [Hm1|Hm1]; [|by left]. destruct (Ho2 id Hid2) as [Hm2|Hm2]; [|by right].
    destruct Hji. symmetry. exact (wi_disj _ _ _ _ _ _ _ _ _ Hw i j id Hm1 Hm2).
Qed.

(** C44, for such threads.  Every removal returns normally and was of an
    entity the thread had, which it has no longer; so it can be removed again
    only if it is created again (own_again below).  And at every moment
    entities created from then on get distinct non-zero ids, none of which any
    thread has, except one it is in the middle of removing.
    Missing from C44: threads that keep no discipline, for which it is false
    (C44_remove_twice_refuted). *)
Theorem C44_own_partial ops shared kept still own cs sched c i cl : rules ops ->
  divided shared kept (alive (seen ops)) own ->
  (forall n cl, cs !! n = Some cl -> minds (after ops) shared kept still (own n) knows_nothing [] cl) ->
  run sched (start (after ops) cs) = Some c ->
  cs !! i = Some cl -> calls_only cl ->
  (forall l id ord r l', got ops cs sched i = l ++ (RemoveEntity id ord, r) :: l' ->
     r = Ret OUnit /\ id ∈ own_after shared (own i) l /\ id ∉ own_after shared (own i) (l ++ [(RemoveEntity id ord, r)]) /\
     forall l1 l2, l' = l1 ++ l2 -> id ∈ own_after shared (own i) (l ++ (RemoveEntity id ord, r) :: l1) -> id ∈ l1 ≫= handed_ev) /\
  forall n, let new := trace (replicate n CreateEntity) (cf_world c) ≫= handed_ev in
    length new = n /\ NoDup new /\ 0 ∉ new /\
    forall id, id ∈ new -> id ∈ own_after shared (own i) (got ops cs sched i) -> removing cl (got ops cs sched i) id.
Proof.
  intros L Hd Hcs Hr Hi Hcl.
  destruct (own_fol ops shared kept still own cs sched c (fun n => bool_decide (n = i)) L Hd Hcs) as (γ & aw & Hw & Hcv & H); [|done|].
  { intros n cl' Hn E%bool_decide_eq_true. subst n. by assert (cl' = cl) as -> by congruence. }
  destruct (H i cl Hi) as (Hmade & Hra & _ & Ho & _); [by rewrite bool_decide_eq_true|]. split.
  - intros l id ord r l' E.
    assert (op_apart (after ops) shared kept still (own_after shared (own i) l) (RemoveEntity id ord)) as Ha.
    { eapply (minds_made _ _ _ _ cl); [by apply Hcs|exact Hmade| |exact E]. intros l1 o1 r1 l2 E1. by apply (Hra l1 o1 r1 l2). }
    destruct (Hra l _ r l' E) as [Hf _]. split; [done|]. split; [apply Ha|].
    assert (id ∉ own_after shared (own i) (l ++ [(RemoveEntity id ord, r)])) as Hn.
    { rewrite own_after_snoc. cbn [own_next]. intros [_ X]%elem_of_difference. by rewrite elem_of_singleton in X. }
    split; [done|]. intros l1 l2 -> Hin. eapply own_again; [exact Hn|]. by rewrite <- app_assoc.
  - intros n. cbn zeta. pose proof (wi_R _ _ _ _ _ _ _ _ _ Hw) as HR.
    destruct (seq_ids (replicate n CreateEntity) (cf_world c) _ _ (R_em _ _ HR)) as ((n' & free' & Hem) & Hen & Hok).
    { apply Forall_replicate. done. }
    pose proof (er_nodup _ _ _ Hem) as Hnd. rewrite Hen in Hnd. apply NoDup_app in Hnd as (Hnd & _ & _). apply NoDup_app in Hnd as (_ & Hdis & Hnd). split_and!.
    + clear Hen Hdis Hnd Hem. revert Hok. generalize (cf_world c). induction n as [|n IH]; intros w Hok; [done|]. cbn [replicate trace] in *.
      destruct (step CreateEntity w) as [r w'] eqn:Es. apply Forall_cons in Hok as [Hnew Hok]. cbn [mbind list_bind]. rewrite app_length, IH by done.
      cbn [created_ok] in Hnew. destruct Hnew as (id & -> & _). done.
    + done.
    + intros H0. assert (0 ∈ ents (w_em (exec (replicate n CreateEntity) (cf_world c)))) as Hie by (rewrite Hen; apply elem_of_app; by right).
      assert (1 <= 0 <= n'); [|lia]. apply (er_elem _ _ _ 0 Hem). by left.
    + intros id Hid Hin. destruct (Ho id Hin) as [Hm|Hm]; [|done]. exfalso. apply (Hdis id); [|done].
      destruct (wi_own _ _ _ _ _ _ _ _ _ Hw i id Hm) as [Hal Hfr].
      assert (id ∈ ents (w_em (cf_world c)) \/ id ∈ a_free aw) as [|]; [|done|done]. by apply (er_elem _ _ _ id (R_em _ _ HR)).
Qed.

Lemma create_exact (w : world V) n free : em_rel (w_em w) n free ->
  exists w', step CreateEntity w = (Ret (OId (match free with f :: _ => f | [] => S n end)), w') /\
    em_rel (w_em w') (match free with [] => S n | _ => n end) (tail free).
Proof.
  intros H. destruct (create_new _ _ _ w H eq_refl) as (id & w' & E & _). destruct (em_allocate_spec _ _ _ H) as (e' & Ea & H').
  exists w'. rewrite E. revert E. cbn [step]. unfold fmapM, create_entity, bind, on_em, get, lift. rewrite Ea. cbn [fst snd].
  destruct (exist _ _) as [b| | |]; try done. cbn. destruct b; cbn; [|done]. intros [= <- <-]. done.
Qed.
(** an id that is not in use is handed out sooner or later *)
Lemma handed_later m : forall (w : world V) n free id, em_rel (w_em w) n free -> length free + (id - n) <= m -> id ∈ free \/ n < id ->
  exists k, id ∈ trace (replicate k CreateEntity) w ≫= handed_ev.
Proof.
  induction m as [|m IH]; intros w n free id He Hm Hid.
  { destruct free; [|simpl in Hm; lia]. destruct Hid as [?%elem_of_nil|]; [done|]. simpl in Hm. lia. }
  destruct (create_exact w n free He) as (w' & E & He').
  assert (forall k, id ∈ trace (replicate k CreateEntity) w' ≫= handed_ev -> exists k, id ∈ trace (replicate k CreateEntity) w ≫= handed_ev) as Hlater.
  { intros k Hk. exists (S k). cbn [replicate trace]. rewrite E. cbn [mbind list_bind]. apply elem_of_app. by right. }
  destruct free as [|f fs]; cbn [tail] in He'.
  - destruct Hid as [?%elem_of_nil|Hid]; [done|]. destruct (decide (id = S n)) as [->|Hne].
    + exists 1. cbn [replicate trace]. rewrite E. cbn. left.
    + destruct (IH w' (S n) [] id He') as [k Hk]; [simpl in *; lia|right; lia|]. by eapply Hlater.
  - destruct (decide (id = f)) as [->|Hne].
    + exists 1. cbn [replicate trace]. rewrite E. cbn. left.
    + destruct (IH w' n fs id He') as [k Hk]; [simpl in *; lia| |by eapply Hlater]. destruct Hid as [[->|?]%elem_of_cons|]; [done|by left|by right].
Qed.
(** C44, for such threads: when they have finished, the entities there are are
    those they have, and those that were there before and nobody's own, or
    everybody's.  All of these exist, and all other ids, so all that were
    removed, and only they, are given to new entities. *)
Theorem C44_ids_partial ops shared kept still own cs sched c id : rules ops ->
  divided shared kept (alive (seen ops)) own ->
  (forall n cl, cs !! n = Some cl -> minds (after ops) shared kept still (own n) knows_nothing [] cl /\ calls_only cl) ->
  run sched (start (after ops) cs) = Some c ->
  (forall n cl, cs !! n = Some cl -> rest cl (got ops cs sched n) = Done) ->
  shared id = false -> id <> 0 ->
  let taken := (exists n, n < length cs /\ id ∈ own_after shared (own n) (got ops cs sched n)) \/
               (id ∈ alive (seen ops) /\ forall n, n < length cs -> id ∉ own n) in
  (taken -> (step (Exist id) (cf_world c)).1 = Ret (OBool true)) /\
  ((exists n, id ∈ trace (replicate n CreateEntity) (cf_world c) ≫= handed_ev) <-> ~ taken).
Proof.
  intros L Hd Hcs Hr Hdone Hs Hid0 taken.
  destruct (own_fol ops shared kept still own cs sched c (fun _ => true) L Hd) as (γ & aw & Hw & Hcv & H); [by intros ?? []%Hcs|by intros ?? []%Hcs|done|].
  pose proof (wi_R _ _ _ _ _ _ _ _ _ Hw) as HR.
  assert (taken <-> live aw id) as HT.
  { split.
    - intros [(n & Hn & Hin)|Hun].
      + apply lookup_lt_is_Some in Hn as [cl Hcl]. destruct (H n cl Hcl eq_refl) as (_ & _ & _ & _ & Hb). destruct (Hb (Hdone n cl Hcl)) as (_ & Hm & _). rewrite <- Hm in Hin.
        exact (wi_own _ _ _ _ _ _ _ _ _ Hw n id Hin).
      + rewrite (live_ents _ _ _ HR). by apply (cv_pool _ _ _ _ _ Hcv).
    - rewrite (live_ents _ _ _ HR). intros Hin. destruct (cv_all _ _ _ _ _ Hcv id Hin Hs) as [(n & Hn & Hm)|Hun]; [left|by right]. exists n. split; [done|].
      apply lookup_lt_is_Some in Hn as [cl Hcl]. destruct (H n cl Hcl eq_refl) as (_ & _ & _ & _ & Hb). destruct (Hb (Hdone n cl Hcl)) as (_ & Hm' & _). by rewrite <- Hm'. }
  split.
  - intros Hl%HT. pose proof (live_exist _ _ id HR Hl) as He. cbn [step]. unfold fmapM, bind, get, lift, ret. by rewrite He.
  - rewrite HT. split.
    + intros [n Hn] Hl. destruct (seq_ids (replicate n CreateEntity) (cf_world c) _ _ (R_em _ _ HR)) as ((n' & free' & Hem) & Hen & _).
      { apply Forall_replicate. done. }
      pose proof (er_nodup _ _ _ Hem) as Hnd. rewrite Hen in Hnd. apply NoDup_app in Hnd as (Hnd & _ & _). apply NoDup_app in Hnd as (_ & Hdis & _).
      apply (Hdis id); [|done]. by apply (live_ents _ _ _ HR).
    + intros Hl. eapply (handed_later _ _ _ _ id (R_em _ _ HR)); [done|]. unfold live, allocated in Hl.
      destruct (decide (id ∈ a_free aw)) as [|Hnf]; [by left|right]. destruct (decide (id <= a_next aw)); [|lia]. destruct Hl. split; [lia|done].
Qed.

(** C50: the answers to a thread's calls about its own entities are right
    ([as_alone], SpecApart.v): what its own calls make them, whatever the
    other threads do meanwhile.  Entities it has exist; reading, overwriting
    and detaching their components finds the values it attached or wrote last
    (if [still = false], when anybody may overwrite any value: finds the
    components it attached); attaching registered types works; entities it
    created have no components until it attaches some.  When it has made all
    its calls, the shared world shows just these components. *)
Theorem C50_own_answers ops shared kept still own cs sched c i cl l o r l' : rules ops ->
  divided shared kept (alive (seen ops)) own ->
  (forall n cl, cs !! n = Some cl -> minds (after ops) shared kept still (own n) knows_nothing [] cl) ->
  run sched (start (after ops) cs) = Some c ->
  cs !! i = Some cl -> calls_only cl -> bare_dead (after ops) shared kept (seen ops) ->
  got ops cs sched i = l ++ (o, r) :: l' ->
  as_alone (after ops) shared kept still (own_after shared (own i) l) (own_value (seen ops) l) o r /\
  (forall t id v, o = Attach t id v -> id ∈ own_after shared (own i) l -> has_registered t (after ops) = true -> r = Ret OUnit).
Proof.
  intros L Hd Hcs Hr Hi Hcl Hb E.
  destruct (own_fol ops shared kept still own cs sched c (fun n => bool_decide (n = i)) L Hd Hcs) as (γ & aw & Hw & Hcv & H); [|done|].
  { intros n cl' Hn X%bool_decide_eq_true. subst n. by assert (cl' = cl) as -> by congruence. }
  destruct (H i cl Hi) as (_ & Hra & _); [by rewrite bool_decide_eq_true|]. destruct (Hra l o r l' E) as [Hf Ha]. split; [by apply Ha|]. intros t id v ->. exact Hf.
Qed.
Theorem C50_own_end ops shared kept still own cs sched c i cl t id : rules ops ->
  divided shared kept (alive (seen ops)) own ->
  (forall n cl, cs !! n = Some cl -> minds (after ops) shared kept still (own n) knows_nothing [] cl) ->
  run sched (start (after ops) cs) = Some c ->
  cs !! i = Some cl -> calls_only cl -> bare_dead (after ops) shared kept (seen ops) ->
  rest cl (got ops cs sched i) = Done -> id ∈ own_after shared (own i) (got ops cs sched i) -> ~ common (after ops) shared kept t id ->
  alike still (shows (cf_world c) t id) (own_value (seen ops) (got ops cs sched i) t id).
Proof.
  intros L Hd Hcs Hr Hi Hcl Hb Hdone Hid Hn.
  destruct (own_fol ops shared kept still own cs sched c (fun n => bool_decide (n = i)) L Hd Hcs) as (γ & aw & Hw & Hcv & H); [|done|].
  { intros n cl' Hm X%bool_decide_eq_true. subst n. by assert (cl' = cl) as -> by congruence. }
  destruct (H i cl Hi) as (_ & _ & _ & _ & Hbase); [by rewrite bool_decide_eq_true|]. destruct (Hbase Hdone) as (Hidle & Hmine & Hv). rewrite <- Hmine in Hid.
  rewrite (shows_comp _ _ _ _ (wi_R _ _ _ _ _ _ _ _ _ Hw)). pose proof (wi_ghost _ _ _ _ _ _ _ _ _ Hw i) as (_ & Hs & _).
  eapply alike_trans; [apply (Hs Hb t id Hid Hn)|by apply Hv]. intros G T E. unfold idle in Hidle. rewrite E in Hidle. by destruct Hidle as [?|(?&?&?)].
Qed.
End own.

(** Three threads on the world of C40_apart_case: the first has entity 1, from
    which it detaches type 1 and attaches it again, reading in between, and
    overwrites it; the others make an entity each, read it, give it both types,
    take one off, remove the entity, and make another. *)
Definition own_life (v : nat) : client nat :=
  Call CreateEntity (fun r => match r with
    | Ret (OId id) =>
        if apart_kept id then Done else
        Call (ReadComp 1 id) (fun _ => Call (Attach 1 id v) (fun _ => Call (Attach 2 id (S v)) (fun _ => Call (ReadComp 1 id) (fun _ => Call (Detach 2 id) (fun _ =>
        Call (RemoveEntity id [1; 2]) (fun _ => Call CreateEntity (fun r => match r with
            | Ret (OId id) => Call (StoreExist 1 id) (fun _ => Done) | _ => Done end)))))))
    | _ => Done end).
Definition own_cs : list (client nat) :=
  [ Call (Detach 1 1) (fun _ => Call (ReadComp 1 1) (fun _ => Call (Attach 1 1 11) (fun _ => Call (WriteComp 1 1 12) (fun _ => Call (ReadComp 1 1) (fun _ => Done)))));
    own_life 50; own_life 60 ].
Definition own_own (n : nat) : gset nat := match n with 0 => {[1]} | _ => ∅ end.
Lemma own_divided : divided apart_shared apart_kept (alive (seen apart_ops)) own_own.
Proof.
  destruct apart_divided as (H1 & H2 & H3 & H4). assert (forall n, own_own n ⊆ apart_own n) as Hs by (intros [|n]; simpl; set_solver).
  split_and!.
  - intros n. etrans; [apply Hs|apply H1].
  - intros n m id Hn Hm. eapply H2; by apply Hs.
  - intros n id Hn. apply (H3 n). by apply Hs.
  - done.
Qed.
Lemma own_calls n cl : own_cs !! n = Some cl -> calls_only cl.
Proof.
  assert (forall v, calls_only (own_life v)) as Hl.
  { intros v. split; [done|]. intros [[]| | |]; try done. destruct (apart_kept id); [done|]. do 6 (split; [done|intros _]). split; [done|]. intros [[]| | |]; done. }
  destruct n as [|[|[|n]]]; intros [= <-]; [|apply Hl|apply Hl]. by repeat split.
Qed.
Lemma own_minds n cl : own_cs !! n = Some cl -> minds (after apart_ops) apart_shared apart_kept true (own_own n) knows_nothing [] cl.
Proof.
  pose proof apart_head as Hhead. pose proof apart_reg as Hreg. revert Hhead Hreg. generalize (after apart_ops). intros w Hhead Hreg.
  assert (forall id mine, id ∈ gain apart_shared [id] mine \/ apart_shared id = true) as HG.
  { intros id mine. unfold gain. destruct (apart_shared id) eqn:E; [by right|]. left. apply elem_of_union_r, elem_of_list_to_set, elem_of_list_filter. split; [done|left]. }
  assert (forall v, minds w apart_shared apart_kept true ∅ knows_nothing [] (own_life v)) as Hlife.
  { intros v. split; [done|]. intros r (id & -> & _ & _). cbn [own_next]. destruct (apart_kept id) eqn:Ek; [done|].
    assert (id ∈ gain apart_shared [id] ∅) as Hin.
    { destruct (HG id ∅) as [?|Hs]; [done|]. unfold apart_shared, apart_kept in *. rewrite Hs, orb_true_r in Ek. done. }
    cbn [minds op_apart own_next]; unfold may_attach, may_detach. split; [done|intros ? _]. split; [by left|intros ? _]. split; [by left|intros ? _]. split; [done|intros ? _]. split; [by left|intros ? _].
    split.
    { split; [done|]. split; [done|]. split; [intros i j t k a b Hij _ (-> & _)%Hhead; lia|]. split; [|apply Hreg]. apply NoDup_cons. split; [|apply NoDup_singleton]. by intros ?%elem_of_list_singleton. }
    intros ? _. split; [done|]. intros ? (id' & -> & _). done. }
  destruct n as [|[|[|n]]]; [..|by destruct n]; intros [= <-]; [cbn [minds op_apart own_next]; unfold may_attach, may_detach; cbn [own_own]|..].
  - split; [left; by apply elem_of_singleton|]. intros r _. split; [done|]. intros ? _. split; [left; by apply elem_of_singleton|]. intros ? _. split; [|done]. intros _. left. by apply elem_of_singleton.
  - apply (Hlife 50).
  - apply (Hlife 60).
Qed.
Lemma own_bare : bare_dead (after apart_ops) apart_shared apart_kept (seen apart_ops).
Proof.
  intros t id Hid _. assert (1 ∈ alive (seen apart_ops)) as H1.
  { apply (proj1 own_divided 0). cbn [own_own]. by apply elem_of_singleton. }
 
  assert (id <> 1) as Hne by (intros ->; done). clear Hid H1.
  assert (seen apart_ops = zip apart_ops [Ret OUnit; Ret OUnit; Ret (OId 1); Ret (OId 2); Ret (OId 3); Ret OUnit; Ret OUnit; Ret OUnit]) as -> by (vm_compute; reflexivity).
  unfold value_of. cbn. rewrite !decide_False by naive_solver. done.
Qed.
(** These meet the hypotheses of all the theorems above. *)
Example C50_own_case : rules apart_ops /\ divided apart_shared apart_kept (alive (seen apart_ops)) own_own /\
  (forall n cl, own_cs !! n = Some cl -> minds (after apart_ops) apart_shared apart_kept true (own_own n) knows_nothing [] cl) /\
  (forall n cl, own_cs !! n = Some cl -> calls_only cl) /\ bare_dead (after apart_ops) apart_shared apart_kept (seen apart_ops) /\
  (forall t, t = 1 \/ t = 2 -> ~ common (after apart_ops) apart_shared apart_kept t 1) /\
  exists sched, runs sched (start (after apart_ops) own_cs) = true /\ take 12 (drop 31 sched) = [0; 1; 2; 0; 1; 2; 0; 1; 2; 0; 1; 2] /\
    all_done (at_end sched (start (after apart_ops) own_cs)) = true /\
    (forall n cl, own_cs !! n = Some cl -> rest cl (got apart_ops own_cs sched n) = Done) /\
    got apart_ops own_cs sched 0 = [(Detach 1 1, Ret (OVal (Some 10))); (ReadComp 1 1, Ret (OVal None)); (Attach 1 1 11, Ret OUnit); (WriteComp 1 1 12, Ret (OBool true)); (ReadComp 1 1, Ret (OVal (Some 12)))] /\
    got apart_ops own_cs sched 1 = [(CreateEntity, Ret (OId 4)); (ReadComp 1 4, Ret (OVal None)); (Attach 1 4 50, Ret OUnit); (Attach 2 4 51, Ret OUnit); (ReadComp 1 4, Ret (OVal (Some 50)));
      (Detach 2 4, Ret (OVal (Some 51))); (RemoveEntity 4 [1; 2], Ret OUnit); (CreateEntity, Ret (OId 4)); (StoreExist 1 4, Ret (OBoolOpt (Some false)))].
Proof.
  split; [check_rules|]. split; [apply own_divided|]. split; [apply own_minds|]. split; [apply own_calls|]. split; [apply own_bare|]. split.
  { intros t Ht [?|[_ Hu]]; [done|]. destruct (Hu 0 KFull 1 2) as [? ?]; [vm_compute; done|]. by destruct Ht. }
  assert (exists s, s = (PropApart.robin 1000 0 (start (after apart_ops) own_cs)).2) as [s E] by by eexists. vm_compute in E.
  exists s. rewrite E. split; [vm_compute; done|]. split; [done|]. split; [vm_compute; done|].
  split; [intros [|[|[|n]]] cl; [intros [= <-]; vm_compute; reflexivity..|by destruct n]|]. split; vm_compute; reflexivity.
Qed.

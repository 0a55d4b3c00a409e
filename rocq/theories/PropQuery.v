(** Properties of queries: C21-C25.  Vocabulary as in PropEntity.v and
    PropComp.v.  [answer ops (Query q)] is what
    [world.query::<Q>().with_id().collect()] gives after the calls [ops];
    [use ops q cs] is what the iterator answers to the calls [cs]. *)
From stdpp Require Import prelude list gmap.
From Verif Require Import Base Api ModelSparse ModelEntity ModelGroup ModelWorld ModelQuery ModelStep
  Spec History Rules Samples ProofSparse ProofEntity ProofGroup ProofWorld ProofOps ProofOps2 ProofRemove ProofRemove2
  ProofQuery ProofQuery2 ProofQuery3 ProofQueryMut ProofMain ProofHistory ProofQuery4 ProofHistory2 Checks PropEntity PropComp.

Lemma filter_iff_in {A} (P Q : A -> Prop) `{forall x, Decision (P x)} `{forall x, Decision (Q x)} (l : list A) :
  (forall x, x ∈ l -> P x <-> Q x) -> filter P l = filter Q l.
Proof.
  induction l as [|x l IH]; intros E; [done|]. rewrite !filter_cons.
  assert (P x <-> Q x) as Ex by (apply E; left). rewrite (IH (fun y Hy => E y (elem_of_list_further _ _ _ Hy))).
  destruct (decide (P x)), (decide (Q x)); tauto.
Qed.

Section query.
Context {V : Type}.
Implicit Types (ops : list (op V)) (t id : nat) (v : V) (q : query) (x y : vtree V).

(** The query [q] is in order after the history: its types are registered and
    its groups made, no type occurs twice with one of the two mutable, its
    non-owning groups (if any) are undisturbed (C30) and its groups (if any)
    have left out no entity (C32).  For queries without groups the last two
    hold trivially ([plain_fine]). *)
Definition q_fine (h : history V) q : Prop :=
  q_known h q /\ ~ q_conflict q /\ q_undisturbed h q /\ q_none_left h q.

Lemma plain_groups q : q_plain q = true -> q_groups q = [].
Proof.
  induction q; simpl; rewrite ?andb_true_iff; intros; destruct_and?; try done.
  - by rewrite IHq1, IHq2.
  - by rewrite IHq1, IHq2, IHq3.
  - by rewrite IHq1, IHq2, IHq3, IHq4.
  - by rewrite IHq1, IHq2, IHq3, IHq4, IHq5.
  - by rewrite IHq1, IHq2.
  - by rewrite IHq1, IHq2.
Qed.
Lemma plain_fine h q : q_plain q = true ->
  q_fine h q <-> (forall t m, (t, m) ∈ q_refs q -> t ∈ types_of h) /\ ~ q_conflict q.
Proof.
  intros P%plain_groups. unfold q_fine, q_known, q_undisturbed, q_none_left. rewrite P. split.
  - intros ((? & ?) & ? & ?). done.
  - intros [? ?]. split_and!; try done; intros *; by intros ?%elem_of_nil.
Qed.

Lemma fine_open ops q : rules ops -> q_fine (seen ops) q ->
  let aw := aexec ops a_init in
  R (after ops) aw /\ agree (seen ops) aw /\ a_open aw q = Ret tt /\ q_fresh aw q = true /\ q_complete aw q.
Proof.
  intros L (K & C & U & N) aw. destruct (reached ops L) as [H A]. pose proof (agree2_exec ops L) as A2.
  split; [done|]. split; [done|]. split; [by apply (open_cases (seen ops) aw q A)|].
  split; [by eapply hist_fresh|by eapply hist_complete].
Qed.
Lemma fine_run ops q : rules ops -> q_fine (seen ops) q ->
  exists l, run_query (after ops) q = Ret l /\ exactly (q_sem (value_of (seen ops)) q) l /\
    l.*1 = q_list (after ops) (aexec ops a_init) q.
Proof.
  intros L F. destruct (fine_open ops q L F) as (H & A & O & Fr & C).
  pose proof (run_query_order _ _ q H Fr) as S. rewrite O in S. destruct S as (l & E & [N Q] & Ord).
  exists l. split; [done|]. split; [|done]. split; [done|]. intros id v. rewrite Q.
  rewrite (complete_get _ q (value_of (seen ops)) id C) by apply (ag_val _ _ A).
  rewrite (complete_visits _ q id C). rewrite (complete_get _ q (value_of (seen ops)) id C) by apply (ag_val _ _ A).
  split; [tauto|]. intros E'. rewrite E'. eauto.
Qed.

(** Every query in order answers with exactly the entities having an item,
    once each, with the item ([q_sem], History.v, is the meaning of the query),
    and changes nothing. *)
Theorem C22_query_exact ops q : rules ops -> q_fine (seen ops) q ->
  exists l, step (Query q) (after ops) = (Ret (OItems l), after ops) /\
    exactly (q_sem (value_of (seen ops)) q) l.
Proof.
  intros L F. destruct (fine_run ops q L F) as (l & E & X & _). exists l. split; [|done].
  simpl. unfold fmapM, bind, get, lift. by rewrite E.
Qed.

(** ** C21 *)

(** [query::<&T>()] and [query::<&mut T>()]: every component of the type once,
    with its own entity, in the order of [data()]. *)
Theorem C21_ref_exact ops m t : rules ops -> t ∈ types_of (seen ops) ->
  exists es vs, layout ops t es vs /\ NoDup es /\
    (forall id, id ∈ es <-> is_Some (value_of (seen ops) t id)) /\
    Forall2 (fun id v => value_of (seen ops) t id = Some v) es vs /\
    step (Query (QRef m t)) (after ops) = (Ret (OItems (zip es (VLeaf <$> vs))), after ops).
Proof.
  intros L Ht. destruct (C03_dense ops t L Ht) as (es & vs & La & N & Hes & F & _).
  exists es, vs. split_and!; try done. destruct La as (Hl & _ & Q). unfold answer in Q. simpl in *.
  destruct (reg_storage ops t L Ht) as (s & mm & Hs & _ & Rs). destruct (reached ops L) as [H A].
  unfold fmapM, bind, get, lift in *. rewrite (query_ref_exact _ _ false t s H Hs (rep_wf _ _ _ Rs)) in Q.
  rewrite (query_ref_exact _ _ m t s H Hs (rep_wf _ _ _ Rs)). by injection Q as ->.
Qed.
(** A query of a type that is not registered panics. *)
Theorem C21_unregistered ops m t : rules ops -> t ∉ types_of (seen ops) ->
  step (Query (QRef m t)) (after ops) = (Panic, after ops).
Proof.
  intros L Ht. destruct (reached ops L) as [H A]. simpl. unfold fmapM, bind, get, lift.
  pose proof (run_query_order _ _ (QRef m t) H eq_refl) as S. unfold a_open in S. simpl in S.
  rewrite decide_False in S by (by rewrite <- (ag_reg _ _ A)). by rewrite S.
Qed.

(** ** C24: the calls of the iterator, in any mix *)

(** Any sequence of [next], [next_with_id], [from_id], [size_hint] calls, mixed
    with writes to the components through the items, answers as [q_calls]
    (History.v) says: [next] and [next_with_id] walk through the same list of
    entities [es], which is the one [with_id().collect()] gives; [from_id] gives
    for any entity the item the iteration gives for it. *)
Theorem C24_iterator_calls_partial ops q : rules ops -> q_fine (seen ops) q ->
  exists l, answer ops (Query q) = Ret (OItems l) /\ exactly (q_sem (value_of (seen ops)) q) l /\
    forall cs, use ops q cs = Ret (q_calls (knows_size q) q (value_of (seen ops)) l.*1 cs).
Proof.
  intros L F. destruct (fine_run ops q L F) as (l & E & X & Ord). exists l. split.
  { unfold answer. simpl. unfold fmapM, bind, get, lift. by rewrite E. }
  split; [done|]. intros cs. destruct (fine_open ops q L F) as (H & A & O & Fr & C). unfold use.
  pose proof (use_query_spec _ _ q cs H Fr) as S. rewrite O in S. rewrite S, Ord. f_equal.
  apply calls_sem; [done|]. intros. apply (ag_val _ _ A).
Qed.
(** In particular: [from_id(id)] is [Some(item)] iff the iteration visits [id]
    with that item; [next] gives the items of [with_id] in order, without the
    ids, and after the end [None] for ever. *)
Corollary C24_from_id_partial ops q id : rules ops -> q_fine (seen ops) q ->
  exists l r, answer ops (Query q) = Ret (OItems l) /\ use ops q [CFromId id] = Ret [AItem r] /\
    forall x, r = Some x <-> (id, x) ∈ l.
Proof.
  intros L F. destruct (C24_iterator_calls_partial ops q L F) as (l & E & [N X] & U).
  exists l, (q_sem (value_of (seen ops)) q id). split; [done|]. split; [by rewrite U|]. intros x. by rewrite X.
Qed.
Lemma calls_next sz q val n : forall l : list (nat * vtree V),
  (forall id x, (id, x) ∈ l -> q_sem val q id = Some x) ->
  q_calls sz q val l.*1 (replicate n CNext) = (fun i => AItem (snd <$> l !! i)) <$> seq 0 n.
Proof.
  induction n as [|n IH]; intros l Hl; [done|]. cbn [replicate q_calls seq fmap list_fmap].
  rewrite <- (fmap_S_seq 0 n), <- list_fmap_compose. destruct l as [|[id x] l]; simpl.
  - f_equal. pose proof (IH []) as E. simpl in E. rewrite E by (intros ? ? ?%elem_of_nil; done).
    apply list_fmap_ext. intros ? ? _. done.
  - rewrite (Hl id x) by left. f_equal. rewrite IH by (intros ? ? ?; apply Hl; by right). done.
Qed.
Lemma calls_next_id sz q val n : forall l : list (nat * vtree V),
  (forall id x, (id, x) ∈ l -> q_sem val q id = Some x) ->
  q_calls sz q val l.*1 (replicate n CNextId) = (fun i => AIdItem (l !! i)) <$> seq 0 n.
Proof.
  induction n as [|n IH]; intros l Hl; [done|]. cbn [replicate q_calls seq fmap list_fmap].
  rewrite <- (fmap_S_seq 0 n), <- list_fmap_compose. destruct l as [|[id x] l]; simpl.
  - f_equal. pose proof (IH []) as E. simpl in E. rewrite E by (intros ? ? ?%elem_of_nil; done).
    apply list_fmap_ext. intros ? ? _. done.
  - rewrite (Hl id x) by left. f_equal. rewrite IH by (intros ? ? ?; apply Hl; by right). done.
Qed.
Corollary C24_next ops q n : rules ops -> q_fine (seen ops) q ->
  exists l, answer ops (Query q) = Ret (OItems l) /\
    use ops q (replicate n CNext) = Ret ((fun i => AItem (snd <$> l !! i)) <$> seq 0 n) /\
    use ops q (replicate n CNextId) = Ret ((fun i => AIdItem (l !! i)) <$> seq 0 n).
Proof.
  intros L F. destruct (C24_iterator_calls_partial ops q L F) as (l & E & [N X] & U).
  exists l. split; [done|]. rewrite !U. split; f_equal; [apply calls_next|apply calls_next_id]; intros; by apply X.
Qed.
(** [size_hint] of a single reference or a group is exact at every point. *)
Lemma calls_next_hint sz q (val : nat -> nat -> option V) n : forall rem, exists l',
  q_calls sz q val rem (replicate n CNext ++ [CHint]) =
    l' ++ [AHint (if sz then Some (length rem - n) else None)] /\ length l' = n.
Proof.
  induction n as [|n IH]; intros rem; simpl.
  - exists []. by rewrite Nat.sub_0_r.
  - destruct (IH (tail rem)) as (l' & -> & Hl). eexists (_ :: l'). split; [|by rewrite <- Hl].
    simpl. do 2 f_equal. destruct rem; simpl; done.
Qed.
Corollary C21_len_exact ops q n : rules ops -> q_fine (seen ops) q -> knows_size q = true ->
  exists l as_, answer ops (Query q) = Ret (OItems l) /\
    use ops q (replicate n CNext ++ [CHint]) = Ret (as_ ++ [AHint (Some (length l - n))]) /\ length as_ = n.
Proof.
  intros L F Hs. destruct (C24_iterator_calls_partial ops q L F) as (l & E & X & U).
  destruct (calls_next_hint (knows_size q) q (value_of (seen ops)) n l.*1) as (l' & E' & Hl).
  exists l, l'. split; [done|]. rewrite U, E', Hs, fmap_length. done.
Qed.

(** ** C22, C23: joins and anti-joins, in terms of the component queries *)

(** [l] is the answer of the query [q] *)
Definition answers ops q (l : list (nat * vtree V)) : Prop := answer ops (Query q) = Ret (OItems l).

Lemma answers_run ops q l : answers ops q l <-> run_query (after ops) q = Ret l.
Proof.
  unfold answers, answer. simpl. unfold fmapM, bind, get, lift. simpl.
  destruct (run_query (after ops) q); simpl; split; congruence.
Qed.
Lemma fine_answers ops q l : rules ops -> q_fine (seen ops) q -> answers ops q l ->
  exactly (q_sem (value_of (seen ops)) q) l /\ l.*1 = q_list (after ops) (aexec ops a_init) q.
Proof.
  intros L F E%answers_run. destruct (fine_run ops q L F) as (l' & E' & X & O). rewrite E in E'. by injection E' as <-.
Qed.
Lemma fine_answers' ops q : rules ops -> q_fine (seen ops) q -> exists l, answers ops q l.
Proof. intros L F. destruct (fine_run ops q L F) as (l' & E' & _). exists l'. by apply answers_run. Qed.

Lemma q_conflict_sub qa q l1 l2 : q_refs q = l1 ++ q_refs qa ++ l2 -> q_conflict qa -> q_conflict q.
Proof.
  intros E (i & j & t & m & n & Hij & Hi & Hj & Hm). exists (length l1 + i), (length l1 + j), t, m, n.
  split; [lia|]. rewrite E.
  assert (forall k (x : nat * bool), q_refs qa !! k = Some x -> (l1 ++ q_refs qa ++ l2) !! (length l1 + k) = Some x) as Hk.
  { intros k x Hk. rewrite lookup_app_r by lia. replace (length l1 + k - length l1) with k by lia.
    by apply lookup_app_l_Some. }
  split; [by apply Hk|]. split; [by apply Hk|done].
Qed.
Lemma fine_sub h qa q l1 l2 g1 g2 : q_refs q = l1 ++ q_refs qa ++ l2 -> q_groups q = g1 ++ q_groups qa ++ g2 ->
  q_fine h q -> q_fine h qa.
Proof.
  intros E1 E2 (K & C & U & N). split; [|split; [|split]].
  - apply known_Forall in K as [K1 K2]. rewrite E1, !Forall_app in K1. rewrite E2, !Forall_app in K2.
    apply known_Forall. tauto.
  - intros C'. apply C. by eapply q_conflict_sub.
  - apply undisturbed_Forall in U. rewrite E2, !Forall_app in U. apply undisturbed_Forall. tauto.
  - apply none_left_Forall in N. rewrite E2, !Forall_app in N. apply none_left_Forall. tauto.
Qed.

(** the parts of a query *)
Definition parts q : list query :=
  match q with
  | Q2 a b | QWithoutL a b | QWithoutR a b => [a; b]
  | Q3 a b c => [a; b; c]
  | Q4 a b c d => [a; b; c; d]
  | Q5 a b c d e => [a; b; c; d; e]
  | _ => []
  end.
Lemma fine_parts h q p : q_fine h q -> p ∈ parts q -> q_fine h p.
Proof.
  intros F Hp.
  assert (q_refs q = concat (q_refs <$> parts q) /\ q_groups q = concat (q_groups <$> parts q)) as [E1 E2].
  { destruct q; simpl; rewrite ?app_nil_r; try done; by apply elem_of_nil in Hp. }
  apply elem_of_list_split in Hp as (k1 & k2 & E). rewrite E in E1, E2.
  rewrite fmap_app, fmap_cons, concat_app in E1.
  rewrite fmap_app, fmap_cons, concat_app in E2. by eapply fine_sub.
Qed.

(** the value of a tuple item *)
Definition tuple_of (xs : list (vtree V)) : option (vtree V) :=
  match xs with
  | [a; b] => Some (V2 a b)
  | [a; b; c] => Some (V3 a b c)
  | [a; b; c; d] => Some (V4 a b c d)
  | [a; b; c; d; e] => Some (V5 a b c d e)
  | _ => None
  end.
Definition is_tuple q : bool :=
  match q with Q2 _ _ | Q3 _ _ _ | Q4 _ _ _ _ | Q5 _ _ _ _ _ => true | _ => false end.

Lemma sem_tuple val q id (v : vtree V) : is_tuple q = true ->
  q_sem val q id = Some v <->
  exists xs, tuple_of xs = Some v /\ Forall2 (fun p x => q_sem val p id = Some x) (parts q) xs.
Proof.
  intros T. split.
  - destruct q; try done; simpl; intros E;
      repeat match type of E with context [match ?t with _ => _ end] => destruct t eqn:?; try done end;
      injection E as <-.
    + eexists [_; _]. split; [done|]. by repeat constructor.
    + eexists [_; _; _]. split; [done|]. by repeat constructor.
    + eexists [_; _; _; _]. split; [done|]. by repeat constructor.
    + eexists [_; _; _; _; _]. split; [done|]. by repeat constructor.
  - intros (xs & E & F). destruct q; try done; simpl in *;
      repeat match goal with H : Forall2 _ _ _ |- _ => inversion H; clear H; subst end;
      simpl in E; injection E as <-;
      repeat match goal with H : q_sem _ _ _ = Some _ |- _ => rewrite H; clear H end; done.
Qed.

Lemma fine_all ops (qs : list query) : rules ops -> (forall p, p ∈ qs -> q_fine (seen ops) p) ->
  exists ls, Forall2 (answers ops) qs ls.
Proof.
  intros L. induction qs as [|p qs IH]; intros F.
  - exists []. constructor.
  - destruct IH as [ls Hls]; [intros; apply F; by right|]. destruct (fine_answers' ops p L) as [l Hl]; [apply F; left|].
    exists (l :: ls). by constructor.
Qed.
Lemma exactly_elem sem (l : list (nat * vtree V)) id : exactly sem l -> id ∈ l.*1 <-> is_Some (sem id).
Proof.
  intros [_ X]. rewrite elem_of_list_fmap. split.
  - intros ([? v] & -> & Hin). apply X in Hin. simpl. eauto.
  - intros [v Hv]. exists (id, v). split; [done|]. by apply X.
Qed.

(** A tuple query is exactly the join of its parts: the entities which every
    part visits, with the items of the parts, in the order of the first part. *)
Theorem C22_tuple_join_partial ops q : rules ops -> q_fine (seen ops) q -> is_tuple q = true ->
  exists l la ls, answers ops q l /\ Forall2 (answers ops) (parts q) (la :: ls) /\
    l.*1 = filter (fun id => Forall (fun lp => id ∈ lp.*1) ls) la.*1 /\
    NoDup l.*1 /\
    forall id (v : vtree V), (id, v) ∈ l <->
      exists xs, tuple_of xs = Some v /\ Forall2 (fun lp x => (id, x) ∈ lp) (la :: ls) xs.
Proof.
  intros L F T. destruct (fine_answers' ops q L F) as [l Hl]. destruct (fine_answers ops q l L F Hl) as [X Ord].
  destruct (fine_all ops (parts q) L) as [ls Hls]; [intros p Hp; by eapply fine_parts|].
  destruct ls as [|la ls]. { destruct q; try done; by inversion Hls. }
  exists l, la, ls. split; [done|]. split; [done|].
  assert (forall p lp, p ∈ parts q -> answers ops p lp -> exactly (q_sem (value_of (seen ops)) p) lp) as Xp.
  { intros p lp Hp. apply (fine_answers ops p lp L). by eapply fine_parts. }
  assert (forall id (v : vtree V), (id, v) ∈ l <->
      exists xs, tuple_of xs = Some v /\ Forall2 (fun lp x => (id, x) ∈ lp) (la :: ls) xs) as Hx.
  { intros id v. rewrite (proj2 X), sem_tuple by done.
    assert (forall qs ls' xs, (forall p lp, p ∈ qs -> answers ops p lp -> exactly (q_sem (value_of (seen ops)) p) lp) ->
      Forall2 (answers ops) qs ls' ->
      Forall2 (fun p x => q_sem (value_of (seen ops)) p id = Some x) qs xs <-> Forall2 (fun lp x => (id, x) ∈ lp) ls' xs) as Hf.
    { intros qs ls' xs Hq H2. revert xs. induction H2 as [|p lp qs ls' Hp _ IH]; intros xs.
      - split; intros HH; inversion HH; constructor.
      - assert (exactly (q_sem (value_of (seen ops)) p) lp) as [_ Xlp] by (apply Hq; [left|done]).
        split; intros HH; inversion HH; subst; constructor; try (by apply Xlp);
          (apply IH; [intros; apply Hq; [by right|done]|done]). }
    setoid_rewrite (Hf (parts q) (la :: ls) _ Xp Hls). done. }
  split; [|split; [apply X|done]].
  assert (la.*1 = q_list (after ops) (aexec ops a_init) (nth 0 (parts q) q)) as Ela.
  { assert (nth 0 (parts q) q ∈ parts q /\ answers ops (nth 0 (parts q) q) la) as [Hp Ha].
    { destruct q; try done; inversion Hls; subst; simpl; (split; [left|done]). }
    eapply (fine_answers ops _ la L); [by eapply fine_parts|done]. }
  assert (l.*1 = filter (fun id => q_visits (aexec ops a_init) q id = true) la.*1) as El.
  { rewrite Ord, Ela. destruct q; done. }
  rewrite El. apply filter_iff_in. intros id Hid.
  transitivity (id ∈ l.*1).
  { rewrite El, elem_of_list_filter. tauto. }
  rewrite elem_of_list_fmap. split.
  - intros ([? v] & -> & Hv). apply Hx in Hv as (xs & _ & HH). simpl. inversion HH as [|? ? ? ? _ H2]; subst.
    clear -H2. induction H2; constructor; [|done]. apply elem_of_list_fmap. by eexists (_, _).
  - intros Hal. assert (exists xs, Forall2 (fun lp x => (id, x) ∈ lp) (la :: ls) xs) as [xs Hxs].
    { assert (Forall (fun lp : list (nat * vtree V) => id ∈ lp.*1) (la :: ls)) as Hall by (by constructor).
      clear -Hall. remember (la :: ls) as lls eqn:El. clear El la ls. induction Hall as [|lp lls Hlp _ [xs IH]].
      - exists []. constructor.
      - apply elem_of_list_fmap in Hlp as ([? x] & -> & Hx). exists (x :: xs). by constructor. }
    assert (is_Some (tuple_of xs)) as [v Hv].
    { pose proof (Forall2_length _ _ _ Hls) as L1. pose proof (Forall2_length _ _ _ Hxs) as L2. rewrite <- L1 in L2.
      clear -L2 T. destruct q; try done; simpl in L2; repeat (destruct xs as [|? xs]; try done); simpl; eauto. }
    exists (id, v). split; [done|]. apply Hx. eauto.
Qed.

(** [(A, Without<B>)] and [(Without<B>, A)] are exactly the anti-join: what [A]
    gives, in its order, minus the entities for which [B] has an item. *)
Theorem C23_without_partial ops q a b : rules ops -> q_fine (seen ops) q ->
  q = QWithoutR a b \/ q = QWithoutL b a ->
  exists l la lb, answers ops q l /\ answers ops a la /\ answers ops b lb /\
    l = filter (fun p => p.1 ∉ lb.*1) la.
Proof.
  intros L F Hq. destruct (fine_answers' ops q L F) as [l Hl]. destruct (fine_answers ops q l L F Hl) as [X Ord].
  assert (q_fine (seen ops) a /\ q_fine (seen ops) b) as [Fa Fb].
  { split; apply (fine_parts _ q); try done; destruct Hq as [-> | ->]; cbn [parts]; set_solver. }
  destruct (fine_answers' ops a L Fa) as [la Hla]. destruct (fine_answers ops a la L Fa Hla) as [Xa Orda].
  destruct (fine_answers' ops b L Fb) as [lb Hlb]. destruct (fine_answers ops b lb L Fb Hlb) as [Xb Ordb].
  exists l, la, lb. split; [done|]. split; [done|]. split; [done|].
  assert (forall id (v : vtree V), (id, v) ∈ l <-> (id, v) ∈ la /\ id ∉ lb.*1) as Hx.
  { intros id v. rewrite (proj2 X), (proj2 Xa), (exactly_elem _ _ id Xb).
    destruct Hq as [-> | ->]; simpl; (destruct (q_sem _ b id);
      [split; [done|intros [_ N]; destruct N; eauto]|split; [intros ?; split; [done|by intros [? ?]]|tauto]]). }
  assert (l.*1 = filter (fun id => id ∉ lb.*1) la.*1) as El.
  { assert (l.*1 = filter (fun id => q_visits (aexec ops a_init) q id = true) la.*1) as El.
    { rewrite Ord, Orda. destruct Hq as [-> | ->]; done. }
    rewrite El. apply filter_iff_in. intros id Hid. transitivity (id ∈ l.*1).
    { rewrite El, elem_of_list_filter. tauto. }
    rewrite elem_of_list_fmap. split.
    - intros ([? v] & -> & Hv). by apply Hx in Hv as [_ ?].
    - intros Hn. apply elem_of_list_fmap in Hid as ([i v] & -> & Hv). exists (i, v). split; [done|]. by apply Hx. }
  (* both lists have the same ids, and each id its item *)
  assert (forall l1 l2 : list (nat * vtree V), l1.*1 = l2.*1 ->
    (forall id (v v' : vtree V), (id, v) ∈ l1 -> (id, v') ∈ l2 -> v = v') -> l1 = l2) as Hext.
  { induction l1 as [|[i v] l1 IH]; intros [|[i' v'] l2]; simpl; try done. intros [= <- E] Hv.
    rewrite (Hv i v v') by left. f_equal. apply IH; [done|]. intros. eapply Hv; by right. }
  apply Hext.
  - rewrite El. clear. induction la as [|[i v] la IH]; [done|]. rewrite fmap_cons, !filter_cons.
    simpl in *. repeat case_decide; try done. rewrite fmap_cons. simpl. by f_equal.
  - intros id v v' H1 [_ H2]%elem_of_list_filter. apply Hx in H1 as [H1 _].
    apply (proj2 Xa) in H1, H2. congruence.
Qed.

(** ** When a query does not run *)

(** If a type occurs twice and once of the two mutably, the query waits for
    itself; if a type is not registered or a group not made it panics (unless
    it waits for itself first).  Nothing changes. *)
Theorem C22_not_fine ops q : rules ops -> q_undisturbed (seen ops) q ->
  (q_known (seen ops) q -> q_conflict q -> step (Query q) (after ops) = (Block, after ops)) /\
  (~ q_known (seen ops) q -> ~ q_conflict q -> step (Query q) (after ops) = (Panic, after ops)) /\
  (~ q_known (seen ops) q ->
     step (Query q) (after ops) = (Panic, after ops) \/ step (Query q) (after ops) = (Block, after ops)).
Proof.
  intros L U. destruct (reached ops L) as [H A]. pose proof (agree2_exec ops L) as A2.
  pose proof (run_query_order _ _ q H (hist_fresh _ _ _ A A2 U)) as S.
  destruct (open_cases _ _ q A) as (_ & O2 & O3 & O4). simpl. unfold fmapM, bind, get, lift.
  split; [|split].
  - intros K C. rewrite (O2 K C) in S. by rewrite S.
  - intros K C. rewrite (O3 K C) in S. by rewrite S.
  - intros K. destruct (O4 K) as [E|E]; rewrite E in S; rewrite S; auto.
Qed.

(** ** C25 *)

(** Iterating mutably and rewriting every mutable component of each item by
    [f]: every item shows the values from before the iteration (no item sees a
    write through another one), and afterwards exactly the components named by
    the items are rewritten, once. *)
Theorem C25_each_written_once_partial ops q f : rules ops -> q_fine (seen ops) q ->
  exists l, answers ops q l /\ exactly (q_sem (value_of (seen ops)) q) l /\
    answer ops (QueryMut q f) = Ret (OItems l) /\
    forall t id, answer (ops ++ [QueryMut q f]) (ReadComp t id) =
      Ret (OVal (if decide (id ∈ l.*1 /\ t ∈ q_muts q) then f t id <$> value_of (seen ops) t id
                 else value_of (seen ops) t id)).
Proof.
  intros L F. destruct (fine_open ops q L F) as (H & A & O & Fr & C).
  destruct (fine_run ops q L F) as (l & E & X & Ord). exists l. split; [by apply answers_run|]. split; [done|].
  assert (answer ops (QueryMut q f) = Ret (OItems l)) as Ha.
  { unfold answer. simpl. unfold fmapM, bind. pose proof (run_query_mut_same _ _ q f H Fr) as S. rewrite E in S.
    destruct (run_query_mut q f (after ops)) as [r w']. simpl in S. by subst r. }
  split; [done|]. intros t id. assert (rules (ops ++ [QueryMut q f])) as L' by (apply rules_snoc; split; [done|exact Fr]).
  unfold answer. rewrite (C01_read_last_written _ t id L'). cbn [fst]. rewrite seen_snoc, value_snoc, Ha. done.
Qed.

(** No two references in the items of one query denote the same component if
    one of them is mutable: two references at different places (item number
    [p] or [p'], place [j] or [j'] in it) to the same component (position [i]
    of the array of type [t]) are both shared.  Here groups may have left out
    entities. *)
Theorem C25_no_alias_partial ops q l p p' id id' it it' j j' m m' t i : rules ops ->
  q_undisturbed (seen ops) q ->
  query_items (after ops) q = Ret l ->
  l !! p = Some (id, it) -> l !! p' = Some (id', it') ->
  item_refs it !! j = Some (m, t, i) -> item_refs it' !! j' = Some (m', t, i) ->
  (p, j) <> (p', j') -> m = false /\ m' = false.
Proof.
  intros L U. destruct (reached ops L) as [H A]. pose proof (agree2_exec ops L) as A2.
  apply (no_alias _ _ q l p p' id id' it it' j j' m m' t i H). by eapply hist_fresh.
Qed.
(** The items of [query_items] are those the query yields: dereferenced they
    are the answer of the query, so every reference in them is alive. *)
Theorem C25_items_alive ops q l : answers ops q l ->
  exists its, query_items (after ops) q = Ret its /\
    Forall2 (fun (y : nat * item) (z : nat * vtree V) => y.1 = z.1 /\ deref (after ops) y.2 = Some z.2) its l.
Proof.
  intros E%answers_run. unfold run_query, query_items in *.
  destruct (query_open (after ops) q []) as [[J| | |] ?]; try done.
  revert E. cut (forall fuel st l, collect fuel (after ops) J st = Ret l ->
    exists its, collect_items fuel (after ops) J st = Ret its /\
    Forall2 (fun (y : nat * item) (z : nat * vtree V) => y.1 = z.1 /\ deref (after ops) y.2 = Some z.2) its l).
  { intros G E. by apply G. }
  clear l. induction fuel as [|fuel IH]; intros st l E; simpl in *; [done|].
  destruct (qi_next_id J (after ops) st) as [[[[id it]|]| | |] st']; try done.
  - destruct (deref (after ops) it) as [d|] eqn:D; [|done].
    destruct (collect fuel (after ops) J st') as [l'| | |] eqn:Ec; try done. injection E as <-.
    destruct (IH _ _ Ec) as (its & -> & F). eexists. split; [done|]. by constructor.
  - injection E as <-. eexists. split; [done|constructor].
Qed.
End query.

Ltac check_fine := apply q_fineb_ok; vm_compute; reflexivity.

(** *** Cases: the hypotheses are met, with answers that are not empty *)
Example C21_case : rules sample /\ 1 ∈ types_of (seen sample) /\
  answer sample (Query (QRef true 1)) = Ret (OItems [(4, VLeaf 144); (5, VLeaf 15); (3, VLeaf 33)]).
Proof. split; [exact sample_rules|]. split; [by_compute|]. vm_compute. reflexivity. Qed.
Example C22_case : rules sample /\ q_fine (seen sample) (Q2 (QRef true 1) (QRef false 2)) /\
  answer sample (Query (Q2 (QRef true 1) (QRef false 2))) =
    Ret (OItems [(4, V2 (VLeaf 144) (VLeaf 240)); (5, V2 (VLeaf 15) (VLeaf 25))]).
Proof. split; [exact sample_rules|]. split; [check_fine|]. vm_compute. reflexivity. Qed.
Example C22_case_block : rules sample /\ q_known (seen sample) (Q2 (QRef true 1) (QRef false 1)) /\
  q_conflict (Q2 (QRef true 1) (QRef false 1)).
Proof.
  split; [exact sample_rules|]. split.
  - apply known_Forall. split; [|constructor]. apply Forall_forall. intros x Hx.
    assert (x.1 = 1) as -> by (simpl in Hx; set_solver). by_compute.
  - exists 0, 1, 1, true, false. simpl. split; [lia|]. done.
Qed.
(** nested, with a group in it *)
Definition q_nested : query := Q2 (QWithoutL (QRef false 3) (QGroup KFull false true 1 4)) (Q2 (QRef false 1) (QRef false 1)).
Example C22_case_nested : rules sample4 /\ q_fine (seen sample4) q_nested /\
  answer sample4 (Query q_nested) =
    Ret (OItems [(1, V2 (V2 (VLeaf 111) (VLeaf 41)) (V2 (VLeaf 111) (VLeaf 111)))]).
Proof. split; [exact sample4_rules|]. split; [check_fine|]. vm_compute. reflexivity. Qed.
Example C23_case : rules sample /\ q_fine (seen sample) (QWithoutR (QRef true 1) (QRef false 2)) /\
  answer sample (Query (QWithoutR (QRef true 1) (QRef false 2))) = Ret (OItems [(3, VLeaf 33)]).
Proof. split; [exact sample_rules|]. split; [check_fine|]. vm_compute. reflexivity. Qed.
Example C24_case : rules sample /\ q_fine (seen sample) (QRef true 1) /\
  use sample (QRef true 1)
    [CHint; CNextId; CHint; CWrite (fun _ _ v => v + 1); CNext; CFromId 4; CNext; CNext; CHint; CNextId] =
  Ret [AHint (Some 3); AIdItem (Some (4, VLeaf 144)); AHint (Some 2); AWrote; AItem (Some (VLeaf 16));
       AItem (Some (VLeaf 145)); AItem (Some (VLeaf 34)); AItem None; AHint (Some 0); AIdItem None].
Proof. split; [exact sample_rules|]. split; [check_fine|]. vm_compute. reflexivity. Qed.
Example C25_case : rules sample /\ q_fine (seen sample) (Q2 (QRef true 1) (QRef true 2)) /\
  answer (sample ++ [QueryMut (Q2 (QRef true 1) (QRef true 2)) (fun t id v => t + v)]) (Query (QRef false 2)) =
    Ret (OItems [(4, VLeaf 242); (5, VLeaf 27); (2, VLeaf 22)]).
Proof. split; [exact sample_rules|]. split; [check_fine|]. vm_compute. reflexivity. Qed.

(** C24 fails for owning groups that left out entities (C32): [from_id] gives
    an item for an entity the iteration does not visit. *)
Theorem C24_left_out_refuted : exists (ops : list (op nat)) q id x, rules ops /\ q_known (seen ops) q /\
  answer ops (Query q) = Ret (OItems []) /\ use ops q [CFromId id] = Ret [AItem (Some x)].
Proof.
  exists [Register 1; Register 2; MakeGroup KFull 1 2; CreateEntities 1; BatchAttach 1 2 1 [7]; BatchAttach 1 2 2 [8]],
    (QGroup KFull false false 1 2), 1, (V2 (VLeaf 7) (VLeaf 8)).
  split; [check_rules|]. split; [|split; vm_compute; reflexivity].
  apply known_Forall. split; apply Forall_forall; intros y Hy.
  - assert (y.1 = 1 \/ y.1 = 2) as [-> | ->] by (simpl in Hy; set_solver); by_compute.
  - assert (y = (KFull, 1, 2)) as -> by (simpl in Hy; set_solver). by_compute.
Qed.

(** Queries, calls, clients, and whole runs. *)
From Coq Require Import Sorting.Sorted.
From stdpp Require Import prelude list gmap.
From Verif Require Import Base Api ModelSparse ModelEntity ModelGroup ModelWorld ModelQuery ModelStep ModelConc SpecConc
  Spec History ProofSparse ProofWorld ProofWf ProofTerm ProofConc ProofConc2 ProofConc3 ProofConc4 ProofConc5 ProofConc6.

Section clients.
Context {V : Type}.
Implicit Types (w : world V) (h hs mine : list (lock * bool)).
Variables (w0 : world V) (lt : lock -> lock -> Prop) (pl : Prop).
Notation piece := (piece w0).
Notation above := (above lt).
Notation W h0 mine p Q := (wp w0 lt pl True h0 mine p Q).

(** ** Opening queries *)
Fixpoint gfind (k : gkind) (a b : tid) (i n : nat) : option nat :=
  match n with
  | 0 => None
  | S n' => if bool_decide (group_head i w0 = Some (k, a, b)) then Some i else gfind k a b (S i) n'
  end.
(** the guards of an opened query, the newest first *)
Fixpoint q_locks (q : query) : list (lock * bool) :=
  match q with
  | QRef m t => [(LStore t, m)]
  | Q2 a b | QWithoutL a b | QWithoutR a b => q_locks b ++ q_locks a
  | Q3 a b c => q_locks c ++ q_locks b ++ q_locks a
  | Q4 a b c d => q_locks d ++ q_locks c ++ q_locks b ++ q_locks a
  | Q5 a b c d e => q_locks e ++ q_locks d ++ q_locks c ++ q_locks b ++ q_locks a
  | QGroup k ma mb a b =>
      match gfind k a b 0 (n_groups w0) with
      | Some g => [(LGroup g, false); (LStore b, mb); (LStore a, ma)]
      | None => []
      end
  end.
(** the locks of a query are taken in order *)
Fixpoint q_ok hs (q : query) : Prop :=
  match q with
  | QRef m t => above hs (LStore t)
  | Q2 a b | QWithoutL a b | QWithoutR a b => q_ok hs a /\ q_ok (q_locks a ++ hs) b
  | Q3 a b c => q_ok hs a /\ q_ok (q_locks a ++ hs) b /\ q_ok (q_locks b ++ q_locks a ++ hs) c
  | Q4 a b c d => q_ok hs a /\ q_ok (q_locks a ++ hs) b /\ q_ok (q_locks b ++ q_locks a ++ hs) c /\
      q_ok (q_locks c ++ q_locks b ++ q_locks a ++ hs) d
  | Q5 a b c d e => q_ok hs a /\ q_ok (q_locks a ++ hs) b /\ q_ok (q_locks b ++ q_locks a ++ hs) c /\
      q_ok (q_locks c ++ q_locks b ++ q_locks a ++ hs) d /\ q_ok (q_locks d ++ q_locks c ++ q_locks b ++ q_locks a ++ hs) e
  | QGroup k ma mb a b => above hs (LStore a) /\ above hs (LStore b) /\ lt (LStore a) (LStore b) /\
      forall i, i < n_groups w0 -> above hs (LGroup i) /\ lt (LStore a) (LGroup i) /\ lt (LStore b) (LGroup i)
  end.
(** what an iterator needs *)
Definition iter_ok hs (J : qiter V) : Prop := qlocal hs J /\ (pl -> typed_in w0 J) /\ qterm J.

Lemma gfind_head k a b i n g : gfind k a b i n = Some g -> group_head g w0 = Some (k, a, b) /\ g < i + n.
Proof.
  revert i. induction n as [|n IH]; intros i; simpl; [done|]. destruct (bool_decide _) eqn:E.
  - intros [= <-]. apply bool_decide_eq_true in E. split; [done|lia].
  - intros H. destruct (IH _ H). split; [done|lia].
Qed.
Lemma wp_find_group k a b i n mine h0 (Q : option nat -> list (lock * bool) -> Prop) :
  (forall j, j < i + n -> above (mine ++ h0) (LGroup j)) -> Q (gfind k a b i n) mine -> W h0 mine (p_find_group k a b i n) Q.
Proof.
  intros HA. revert i HA. induction n as [|n IH]; intros i HA HQ; [by apply wp_ret|]. cbn [p_find_group].
  apply wp_bind, wp_acq; [apply HA; lia|]. apply wp_bind, wp_head. apply wp_bind. eapply wp_rel; [done|]. cbn [gfind] in HQ.
  destruct (bool_decide _); [by apply wp_ret|]. apply IH; [|done]. intros j Hj. apply HA. lia.
Qed.
Lemma wp_downcast mine h0 t x (Q : unit -> list (lock * bool) -> Prop) : (LStore t, x) ∈ mine ++ h0 -> Q tt mine -> W h0 mine (p_downcast t) Q.
Proof.
  intros Hl HQ. apply wp_ask.
  - intros w w' _ [_ Ha]. specialize (Ha _ _ Hl). simpl in Ha. unfold downcast. by rewrite Ha.
  - intros w [_ Hg]. unfold downcast. destruct (w_comps w !! t) as [st|] eqn:E; [|done]. destruct (st_ty st =? t) eqn:Et; [done|].
    intros Hp. apply Nat.eqb_neq in Et. by destruct (gd_st w (Hg Hp) t st E).
Qed.
Lemma typed_ref m t : has_registered t w0 = true -> typed_in w0 (iter_ref m t).
Proof. intros H. exists [t]. split; [apply qsafe_ref|]. constructor; [by apply bool_decide_eq_true in H|done]. Qed.
Lemma wp_len mine h0 g x (Q : nat -> list (lock * bool) -> Prop) : (LGroup g, x) ∈ mine ++ h0 -> (forall n, Q n mine) ->
  W h0 mine (ask (fun w => match w_groups w !! g with Some g => Ret (g_len g) | None => Panic end)) Q.
Proof.
  intros Hl HQ. apply wp_ask.
  - intros w w' _ [_ Ha]. specialize (Ha _ _ Hl). simpl in Ha. by rewrite Ha.
  - intros w _. by destruct (w_groups w !! g).
Qed.
Lemma iter_sub hs hs' J : (forall y, y ∈ hs -> y ∈ hs') -> iter_ok hs J -> iter_ok hs' J.
Proof. intros Hs (A & B & C). split; [by eapply qlocal_sub|done]. Qed.
Lemma typed2 (F : qiter V -> qiter V -> qiter V) A B :
  (forall T U, qsafe T A -> qsafe U B -> qsafe (T ++ U) (F A B)) -> typed_in w0 A -> typed_in w0 B -> typed_in w0 (F A B).
Proof. intros H (T & HT & FT) (U & HU & FU). exists (T ++ U). split; [auto|]. by apply Forall_app. Qed.

Lemma wp_open q mine h0 (Q : qiter V * list (lock * bool) -> list (lock * bool) -> Prop) : q_ok (mine ++ h0) q -> (pl -> q_plain q = true) ->
  (forall J, iter_ok (q_locks q) J -> Q (J, q_locks q) (q_locks q ++ mine)) -> W h0 mine (p_open q) Q.
Proof.
  revert mine Q. induction q as [m t|a IHa b IHb|a IHa b IHb c IHc|a IHa b IHb c IHc d IHd|a IHa b IHb c IHc d IHd e IHe
    |a IHa b IHb|a IHa b IHb|k ma mb a b]; intros mine Q Hq Hp HQ; cbn [p_open q_ok q_locks q_plain] in *.
  - apply wp_bind, wp_registered. apply wp_bind. apply wp_passert; [done|]. intros Hr. apply wp_bind, wp_acq; [done|].
    apply wp_bind. eapply wp_downcast; [left|]. apply wp_ret. apply (HQ (iter_ref m t)). split; [apply local_ref|]. split; [|apply term_ref].
    intros _. by apply typed_ref.
  - destruct Hq as [Ha Hb]. apply wp_bind, IHa; [done|intros H; specialize (Hp H); by apply andb_prop in Hp as [? ?]|]. intros A HA.
    apply wp_bind, IHb; [by rewrite <- app_assoc|intros H; specialize (Hp H); by apply andb_prop in Hp as [? ?]|]. intros B HB.
    apply wp_ret. cbn [fst snd]. rewrite app_assoc. apply HQ. destruct HA as (LA & TA & FA), HB as (LB & TB & FB).
    split; [apply local_with2; eapply qlocal_sub; try eassumption; intros y; rewrite !elem_of_app; tauto|].
    split; [|by apply term_with2]. intros H. destruct (TA H) as (T & ? & ?), (TB H) as (U & ? & ?).
    exists (T ++ U). split; [by apply qsafe_with2|]. by rewrite !Forall_app.
  - destruct Hq as (Ha & Hb & Hc).
    apply wp_bind, IHa; [done|intros H; specialize (Hp H); by apply andb_prop in Hp as [[? ?]%andb_prop ?]|]. intros A HA.
    apply wp_bind, IHb; [by rewrite <- app_assoc|intros H; specialize (Hp H); by apply andb_prop in Hp as [[? ?]%andb_prop ?]|]. intros B HB.
    apply wp_bind, IHc; [by rewrite <- !app_assoc|intros H; specialize (Hp H); by apply andb_prop in Hp as [[? ?]%andb_prop ?]|]. intros C HC.
    apply wp_ret. cbn [fst snd]. rewrite !app_assoc. rewrite <- (app_assoc (q_locks c)). apply HQ.
    destruct HA as (LA & TA & FA), HB as (LB & TB & FB), HC as (LC & TC & FC).
    split; [apply local_with3; eapply qlocal_sub; try eassumption; intros y; rewrite !elem_of_app; tauto|].
    split; [|by apply term_with3]. intros H. destruct (TA H) as (T & ? & ?), (TB H) as (U & ? & ?), (TC H) as (X & ? & ?).
    exists (T ++ U ++ X). split; [by apply qsafe_with3|]. by rewrite !Forall_app.
  - destruct Hq as (Ha & Hb & Hc & Hd).
    apply wp_bind, IHa; [done|intros H; specialize (Hp H); by apply andb_prop in Hp as [[[? ?]%andb_prop ?]%andb_prop ?]|]. intros A HA.
    apply wp_bind, IHb; [by rewrite <- app_assoc|intros H; specialize (Hp H); by apply andb_prop in Hp as [[[? ?]%andb_prop ?]%andb_prop ?]|]. intros B HB.
    apply wp_bind, IHc; [by rewrite <- !app_assoc|intros H; specialize (Hp H); by apply andb_prop in Hp as [[[? ?]%andb_prop ?]%andb_prop ?]|]. intros C HC.
    apply wp_bind, IHd; [by rewrite <- !app_assoc|intros H; specialize (Hp H); by apply andb_prop in Hp as [[[? ?]%andb_prop ?]%andb_prop ?]|]. intros D HD.
    apply wp_ret. cbn [fst snd].
    replace (q_locks d ++ q_locks c ++ q_locks b ++ q_locks a ++ mine) with ((q_locks d ++ q_locks c ++ q_locks b ++ q_locks a) ++ mine)
      by by rewrite <- !app_assoc.
    apply HQ.
    destruct HA as (LA & TA & FA), HB as (LB & TB & FB), HC as (LC & TC & FC), HD as (LD & TD & FD).
    split; [apply local_with4; eapply qlocal_sub; try eassumption; intros y; rewrite !elem_of_app; tauto|].
    split; [|by apply term_with4]. intros H. destruct (TA H) as (T & ? & ?), (TB H) as (U & ? & ?), (TC H) as (X & ? & ?), (TD H) as (Y & ? & ?).
    exists (T ++ U ++ X ++ Y). split; [by apply qsafe_with4|]. by rewrite !Forall_app.
  - destruct Hq as (Ha & Hb & Hc & Hd & He).
    apply wp_bind, IHa; [done|intros H; specialize (Hp H); by apply andb_prop in Hp as [[[[? ?]%andb_prop ?]%andb_prop ?]%andb_prop ?]|]. intros A HA.
    apply wp_bind, IHb; [by rewrite <- app_assoc|intros H; specialize (Hp H); by apply andb_prop in Hp as [[[[? ?]%andb_prop ?]%andb_prop ?]%andb_prop ?]|]. intros B HB.
    apply wp_bind, IHc; [by rewrite <- !app_assoc|intros H; specialize (Hp H); by apply andb_prop in Hp as [[[[? ?]%andb_prop ?]%andb_prop ?]%andb_prop ?]|]. intros C HC.
    apply wp_bind, IHd; [by rewrite <- !app_assoc|intros H; specialize (Hp H); by apply andb_prop in Hp as [[[[? ?]%andb_prop ?]%andb_prop ?]%andb_prop ?]|]. intros D HD.
    apply wp_bind, IHe; [by rewrite <- !app_assoc|intros H; specialize (Hp H); by apply andb_prop in Hp as [[[[? ?]%andb_prop ?]%andb_prop ?]%andb_prop ?]|]. intros E HE.
    apply wp_ret. cbn [fst snd].
    replace (q_locks e ++ q_locks d ++ q_locks c ++ q_locks b ++ q_locks a ++ mine) with ((q_locks e ++ q_locks d ++ q_locks c ++ q_locks b ++ q_locks a) ++ mine)
      by by rewrite <- !app_assoc.
    apply HQ.
    destruct HA as (LA & TA & FA), HB as (LB & TB & FB), HC as (LC & TC & FC), HD as (LD & TD & FD), HE as (LE & TE & FE).
    split; [apply local_with5; eapply qlocal_sub; try eassumption; intros y; rewrite !elem_of_app; tauto|].
    split; [|by apply term_with5]. intros H. destruct (TA H) as (T & ? & ?), (TB H) as (U & ? & ?), (TC H) as (X & ? & ?), (TD H) as (Y & ? & ?), (TE H) as (Z & ? & ?).
    exists (T ++ U ++ X ++ Y ++ Z). split; [by apply qsafe_with5|]. by rewrite !Forall_app.
  - destruct Hq as [Ha Hb]. apply wp_bind, IHa; [done|intros H; specialize (Hp H); by apply andb_prop in Hp as [? ?]|]. intros A HA.
    apply wp_bind, IHb; [by rewrite <- app_assoc|intros H; specialize (Hp H); by apply andb_prop in Hp as [? ?]|]. intros B HB.
    apply wp_ret. cbn [fst snd]. rewrite app_assoc. apply HQ. destruct HA as (LA & TA & FA), HB as (LB & TB & FB).
    split; [apply local_left; eapply qlocal_sub; try eassumption; intros y; rewrite !elem_of_app; tauto|].
    split; [|by apply term_left]. intros H. destruct (TA H) as (T & ? & ?), (TB H) as (U & ? & ?).
    exists (T ++ U). split; [by apply qsafe_left|]. by rewrite !Forall_app.
  - destruct Hq as [Ha Hb]. apply wp_bind, IHa; [done|intros H; specialize (Hp H); by apply andb_prop in Hp as [? ?]|]. intros A HA.
    apply wp_bind, IHb; [by rewrite <- app_assoc|intros H; specialize (Hp H); by apply andb_prop in Hp as [? ?]|]. intros B HB.
    apply wp_ret. cbn [fst snd]. rewrite app_assoc. apply HQ. destruct HA as (LA & TA & FA), HB as (LB & TB & FB).
    split; [apply local_right; eapply qlocal_sub; try eassumption; intros y; rewrite !elem_of_app; tauto|].
    split; [|by apply term_right]. intros H. destruct (TA H) as (T & ? & ?), (TB H) as (U & ? & ?).
    exists (T ++ U). split; [by apply qsafe_right|]. by rewrite !Forall_app.
  - destruct Hq as (Ha & Hb & Hab & Hg). unfold p_open_group.
    apply wp_bind, wp_look0. { intros w w' Hs. by rewrite !(shape_has _ _ _ Hs). }
    apply wp_bind. apply wp_passert; [done|]. intros _. apply wp_bind, wp_acq; [done|]. apply wp_bind, wp_acq; [by apply above_cons|].
    apply wp_bind. eapply wp_downcast; [right; left|]. apply wp_bind. eapply wp_downcast; [left|]. apply wp_bind, wp_n_groups.
    assert (forall j, j < 0 + n_groups w0 -> above (((LStore b, mb) :: (LStore a, ma) :: mine) ++ h0) (LGroup j)) as HA.
    { intros j Hj. destruct (Hg j) as (? & ? & ?); [lia|]. apply above_cons. split; [done|]. by apply above_cons. }
    apply wp_bind, wp_find_group; [done|]. apply wp_bind. apply wp_passert; [done|]. intros _. apply wp_bind, wp_find_group; [done|].
    apply wp_bind. apply wp_punwrap; [done|]. intros g Eg. rewrite Eg in HQ. destruct (gfind_head _ _ _ _ _ _ Eg) as [Hh Hlt].
    apply wp_bind, wp_acq; [by apply HA|].
    assert (~ pl) as Hn by (intros H; by specialize (Hp H)).
    destruct k.
    + apply wp_bind. eapply wp_len; [left|]. intros n. apply wp_ret. apply HQ. split; [apply local_full|]. split; [done|apply term_full].
    + apply wp_bind. eapply wp_len; [left|]. intros n. apply wp_ret. apply HQ. split; [apply local_part|]. split; [done|apply term_part].
    + apply wp_ret. apply HQ. split; [apply local_non|]. split; [done|apply term_non].
Qed.

(** ** Calls *)
Definition op_ok hs (o : op V) : Prop :=
  match o with
  | Register _ | MakeGroup _ _ _ | RegisterRes _ _ | BatchAttach _ _ _ _ | HasRegistered _ => True
  | CreateEntity | CreateEntities _ | Exist _ => above hs LMan
  | RemoveEntity _ ord => remove_ok w0 lt hs ord
  | Attach t _ _ | Detach t _ => above hs LMan /\ change_ok w0 lt ((LMan, false) :: hs) t
  | ReadComp t _ | StoreCount t | StoreIsEmpty t | StoreExist t _ | StoreGet t _ | StoreData t
  | WriteComp t _ _ | StoreGetMut t _ _ | StoreDataSet t _ _ => above hs (LStore t)
  | Query q | QueryMut q _ => q_ok hs q /\ (pl -> q_plain q = true)
  | ReadRes r | WriteRes r _ => above hs (LRes r)
  end.
(** calls through guards do not block or go wrong *)
Definition guarded (o : op V) : Prop :=
  (exists t, reads_store o = Some t) \/ (exists t, writes_store o = Some t) \/ (exists r, o = ReadRes r) \/ (exists r v, o = WriteRes r v).
Lemma guarded_nb o w : guarded o -> (step o w).1 <> Block.
Proof.
  intros [[t H]|[[t H]|[[r ->]|[r [v ->]]]]]; [by eapply read_op_nb|by eapply write_op_nb|..]; cbn [step];
    unfold fmapM, resource_read, resource_write, bind, get, ret, ub, put; destruct (w_res w !! r) as [y|]; try done; by destruct (_ =? _).
Qed.
Lemma guarded_tame o w : guarded o -> tame w o.
Proof. intros [[t H]|[[t H]|[[r ->]|[r [v ->]]]]]; try done; by destruct o. Qed.
Lemma wp_step mine h0 lab o (Q : out V -> list (lock * bool) -> Prop) : piece (mine ++ h0) lab (step o) -> guarded o ->
  (forall r, Q r mine) -> W h0 mine (act lab (step o)) Q.
Proof.
  intros HP Hg HQ. apply wp_act; [done|]. intros w [_ Hgood]. pose proof (guarded_nb o w Hg) as N.
  pose proof (fun G => good_step w o G (guarded_tame o w Hg)) as U.
  destruct (step o w) as [[r| | |] w']; simpl in *; try done. intros Hp. by destruct (U (Hgood Hp)).
Qed.
Lemma wp_via mine h0 l x lab there o (Q : out V -> list (lock * bool) -> Prop) :
  (forall w w', same_shape w w' -> there w = there w') -> above (mine ++ h0) l -> guarded o ->
  (there w0 = true -> piece ((l, x) :: mine ++ h0) lab (step o)) -> (there w0 = false -> piece (mine ++ h0) BRead (step o)) ->
  (forall r, Q r mine) -> W h0 mine (via_guard l x lab there o) Q.
Proof.
  intros Ht HA Hg H1 H2 HQ. apply wp_bind, wp_look0; [done|]. destruct (there w0).
  - apply wp_bind, wp_acq; [done|]. apply wp_bind, wp_step; [auto|done|]. intros r. apply wp_bind. eapply wp_rel; [done|]. by apply wp_ret.
  - apply wp_step; auto.
Qed.
Lemma res_shape r w w' : same_shape w w' -> has_res r w = has_res r w'.
Proof.
  intros H. unfold has_res. apply bool_decide_ext. rewrite <- (fmap_is_Some rv_ty (w_res w !! r)), (sh_res _ _ H r). by rewrite fmap_is_Some.
Qed.
Lemma unregistered_readres h r : has_res r w0 = false -> piece h BRead (step (ReadRes r)).
Proof.
  intros Hr. assert (forall w, same_shape w0 w -> w_res w !! r = None) as HN.
  { intros w Hs. apply bool_decide_eq_false in Hr. apply eq_None_not_Some. intros Hx. apply Hr. pose proof (sh_res _ _ Hs r) as E.
    apply (fmap_is_Some rv_ty). rewrite E. by apply fmap_is_Some. }
  apply piece_read.
  - intros w. cbn [step]. unfold fmapM, resource_read, bind, get, ret, ub. simpl. destruct (w_res w !! r) as [y|]; [|done]. by destruct (_ =? _).
  - intros w w' Hw Ha. cbn [step]. unfold fmapM, resource_read, bind, get, ret, ub. simpl.
    rewrite (HN w Hw), (HN w'); [done|]. eapply shape_trans; [exact Hw|apply Ha].
Qed.
Lemma piece_collect h hs J : (forall y, y ∈ hs -> y ∈ h) -> qlocal hs J ->
  piece h BRead (fun w => (collect (S (qi_fuel J w (qi_init J))) w J (qi_init J), w)).
Proof.
  intros Hs HJ. apply piece_read; [done|]. intros w w' _ Ha. cbn [fst]. apply (agree_sub _ _ _ _ Hs) in Ha.
  rewrite <- (ql_fuel _ _ HJ _ _ (qi_init J) Ha). by eapply collect_eq.
Qed.
Lemma wp_query mine h0 q (Q : out V -> list (lock * bool) -> Prop) : q_ok (mine ++ h0) q -> (pl -> q_plain q = true) -> (forall r, Q r mine) ->
  W h0 mine (p_call (Query q)) Q.
Proof.
  intros Hq Hp HQ. cbn [p_call]. apply wp_bind, wp_open; [done|done|]. intros J (HL & HT & HF). cbn [fst snd]. apply wp_bind, wp_ask.
  - apply (piece_collect ((q_locks q ++ mine) ++ h0) (q_locks q)) in HL as [HC _]; [|intros y Hy; rewrite !elem_of_app; tauto].
    intros w w' Hw Ha. destruct (HC w Hw) as (_ & _ & H). by destruct (H w' Ha).
  - intros w [Hs Hg]. pose proof (collect_term J (S (qi_fuel J w (qi_init J))) w (qi_init J) HF (Nat.lt_succ_diag_r _)) as N.
    assert (pl -> collect (S (qi_fuel J w (qi_init J))) w J (qi_init J) <> UB) as U.
    { intros H. destruct (HT H) as (T & HS & HR). eapply collect_noub'; [by apply Hg| |exact HS]. by eapply typed_shape. }
    destruct (collect _ w J _) as [l| | |]; try done; [|naive_solver]. eapply wp_rels; [reflexivity|]. by apply wp_ret.
Qed.
Lemma wp_query_mut mine h0 q f (Q : out V -> list (lock * bool) -> Prop) : q_ok (mine ++ h0) q -> (pl -> q_plain q = true) -> (forall r, Q r mine) ->
  W h0 mine (p_call (QueryMut q f)) Q.
Proof.
  intros Hq Hp HQ. cbn [p_call]. apply wp_bind, wp_open; [done|done|]. intros J (HL & HT & HF). cbn [fst snd]. apply wp_bind, wp_act.
  - split; [|intros w _; apply rewritten_drive]. apply (confined_drive w0 (q_locks q)); [|done]. intros y Hy. rewrite !elem_of_app. tauto.
  - intros w [Hs Hg]. pose proof (drive_term J f (S (qi_fuel J w (qi_init J))) w (qi_init J) HF (Nat.lt_succ_diag_r _)) as N.
    assert (pl -> (drive (S (qi_fuel J w (qi_init J))) J f (qi_init J) w).1 <> UB) as U.
    { intros H. destruct (HT H) as (T & HS & HR). eapply drive_ok; [by apply Hg| |exact HS]. by eapply typed_shape. }
    destruct (drive _ J f _ w) as [[l| | |] w']; cbn [fst snd] in *; try done; [|naive_solver]. eapply wp_rels; [reflexivity|]. by apply wp_ret.
Qed.
Lemma wp_call mine h0 o (Q : out V -> list (lock * bool) -> Prop) : op_ok (mine ++ h0) o -> (forall r, Q r mine) -> W h0 mine (p_call o) Q.
Proof.
  assert (forall t w w', same_shape w w' -> has_registered (V := V) t w = has_registered t w') as HR by (intros; by apply shape_has).
  intros Ho HQ. destruct o as [t|t| |n|id ord|id|t id v|t id|lo hi t vs|t id|t id v|t|t|t id|t id|t|t id v|t i v|k a b|q|q f|r v|r|r v];
    cbn [op_ok] in Ho; try done.
  - cbn [p_call]. apply wp_act.
    + apply piece_read; [done|]. intros w w' _ [Hs _]. cbn [step]. unfold bind, get, ret. simpl. by rewrite (HR t w w').
    + intros w _. apply HQ.
  - cbn [p_call]. apply wp_bind, wp_new_entity; [done|]. intros id. apply wp_bind. eapply wp_rel; [done|]. by apply wp_ret.
  - cbn [p_call]. apply wp_bind, wp_new_entities; [done|]. intros id. apply wp_bind. eapply wp_rel; [done|]. by apply wp_ret.
  - cbn [p_call]. apply wp_bind, wp_remove; [done|]. by apply wp_ret.
  - cbn [p_call]. apply wp_bind, wp_exist; [done|]. intros b. by apply wp_ret.
  - cbn [p_call]. destruct Ho as [HM HC]. apply wp_bind, wp_entity; [done| |].
    + apply wp_bind. apply wp_passert; [done|]. intros _. apply wp_bind, wp_handle_attach; [done|].
      apply wp_bind. eapply wp_rel; [done|]. by apply wp_ret.
    + apply wp_bind. by apply wp_passert.
  - cbn [p_call]. destruct Ho as [HM HC]. apply wp_bind, wp_entity; [done| |].
    + apply wp_bind. apply wp_passert; [done|]. intros _. apply wp_bind, wp_handle_detach; [done|]. intros r.
      apply wp_bind. eapply wp_rel; [done|]. by apply wp_ret.
    + apply wp_bind. by apply wp_passert.
  - apply wp_via; [apply HR|done|left; by eexists| | |done]; intros Hr; [by eapply piece_read_op; [|left]|by eapply unregistered_op; [left|]].
  - apply wp_via; [apply HR|done|right; left; by eexists| | |done]; intros Hr; [by eapply piece_write_op; [|left]|by eapply unregistered_op; [right|]].
  - apply wp_via; [apply HR|done|left; by eexists| | |done]; intros Hr; [by eapply piece_read_op; [|left]|by eapply unregistered_op; [left|]].
  - apply wp_via; [apply HR|done|left; by eexists| | |done]; intros Hr; [by eapply piece_read_op; [|left]|by eapply unregistered_op; [left|]].
  - apply wp_via; [apply HR|done|left; by eexists| | |done]; intros Hr; [by eapply piece_read_op; [|left]|by eapply unregistered_op; [left|]].
  - apply wp_via; [apply HR|done|left; by eexists| | |done]; intros Hr; [by eapply piece_read_op; [|left]|by eapply unregistered_op; [left|]].
  - apply wp_via; [apply HR|done|left; by eexists| | |done]; intros Hr; [by eapply piece_read_op; [|left]|by eapply unregistered_op; [left|]].
  - apply wp_via; [apply HR|done|right; left; by eexists| | |done]; intros Hr; [by eapply piece_write_op; [|left]|by eapply unregistered_op; [right|]].
  - apply wp_via; [apply HR|done|right; left; by eexists| | |done]; intros Hr; [by eapply piece_write_op; [|left]|by eapply unregistered_op; [right|]].
  - destruct Ho. by apply wp_query.
  - destruct Ho. by apply wp_query_mut.
  - apply wp_via; [intros; by apply res_shape|done|right; right; left; by eexists| | |done]; intros Hr; [eapply piece_read_res; left|].
    by apply unregistered_readres.
  - apply wp_via; [intros; by apply res_shape|done|right; right; right; by do 2 eexists| | |done]; intros Hr; [eapply piece_write_res; left|].
    by destruct (unregistered_res w0 (mine ++ h0) r v Hr).
Qed.
(** ** Clients *)
Definition obj_ok (ob : obj V) : Prop :=
  match ob with JIter J _ hs => iter_ok hs J | _ => True end.
(** [e]: the guards of the objects kept *)
Fixpoint client_ok (e : list (list (lock * bool))) (c : client V) : Prop :=
  match c with
  | Done => True
  | Call o k => op_ok (concat e) o /\ forall r, client_ok e (k r)
  | GetEntity _ k => above (concat e) LMan /\
      forall r, client_ok (match r with Ret true => [(LMan, false)] :: e | _ => e end) (k r)
  | NewEntity k => above (concat e) LMan /\ forall r, client_ok (match r with Ret _ => [(LMan, false)] :: e | _ => e end) (k r)
  | NewEntities _ k => above (concat e) LMan /\ forall r, client_ok (match r with Ret _ => [(LMan, false)] :: e | _ => e end) (k r)
  | HAttach j t _ k => change_ok w0 lt (concat e) t /\ forall r, client_ok (match r with Ret _ => e | _ => delete j e end) (k r)
  | HDetach _ t k => change_ok w0 lt (concat e) t /\ forall r, client_ok e (k r)
  | HBatch j t _ k => above (concat e) (LStore t) /\ forall r, client_ok (match r with Ret _ => e | _ => delete j e end) (k r)
  | GetStore t x k | GetComp t _ x k => above (concat e) (LStore t) /\
      forall b, client_ok (if (b : bool) then [(LStore t, x)] :: e else e) (k b)
  | GetRes r x k => above (concat e) (LRes r) /\ forall b, client_ok (if (b : bool) then [(LRes r, x)] :: e else e) (k b)
  | Use _ _ k => forall r, client_ok e (k r)
  | Open q k => q_ok (concat e) q /\ (pl -> q_plain q = true) /\
      forall r, client_ok (match r with Ret _ => q_locks q :: e | _ => e end) (k r)
  | ICall _ _ k => forall r, client_ok e (k r)
  | DropObj j k => client_ok (delete j e) k
  end.
Notation WT mine p := (wp w0 lt pl False [] mine p (fun _ m => m = [])).
Lemma wt_stop (e : list (obj V)) : WT (all_holds e) (rels (all_holds e) (PRet tt)).
Proof. eapply wp_rels; [by rewrite app_nil_r|]. by apply wp_ret. Qed.
Lemma all_delete e j ob : e !! j = Some ob -> all_holds e ≡ₚ obj_holds ob ++ all_holds (V := V) (delete j e).
Proof. intros H. unfold all_holds. rewrite (delete_Permutation _ _ _ H) at 1. done. Qed.
Lemma map_delete {A B} (f : A -> B) (l : list A) j : map f (delete j l) = delete j (map f l).
Proof. revert j. induction l as [|x l IH]; intros [|j]; simpl; try done. unfold delete in *. simpl. by rewrite <- IH. Qed.
Lemma wt_catch {A B} mine (p : prog V A) (k : outcome A -> list (lock * bool) -> prog V B) (Q : A -> list (lock * bool) -> Prop) QF :
  W mine [] p Q -> (forall a m m', Q a m -> m' ≡ₚ m -> wp w0 lt pl False [] (m' ++ mine) (k (Ret a) m') QF) ->
  wp w0 lt pl False [] mine (k Panic []) QF -> wp w0 lt pl False [] mine (catch [] p k) QF.
Proof. intros. by eapply (wp_catch w0 lt pl mine []). Qed.
Lemma through_guard ob o : through ob o = true -> guarded o /\
  ((exists t x, (LStore t, x) ∈ obj_holds ob /\ reads_store o = Some t /\ use_label o = BRead) \/
   (exists t, (LStore t, true) ∈ obj_holds ob /\ writes_store o = Some t /\ use_label o = BSet o) \/
   (exists r x, (LRes r, x) ∈ obj_holds ob /\ o = ReadRes r) \/ (exists r v, (LRes r, true) ∈ obj_holds ob /\ o = WriteRes r v)).
Proof.
  unfold guarded. destruct ob as [| |t x|r x|], o; simpl; try done; try (intros ->%Nat.eqb_eq); try (intros [-> ->%Nat.eqb_eq]%andb_prop);
    (split; [naive_solver|]).
  all: first [ left; do 2 eexists; split; [left|done] | right; left; eexists; split; [left|done]
    | right; right; left; do 2 eexists; split; [left|done] | right; right; right; do 2 eexists; split; [left|done] ].
Qed.
Lemma delete_ok (e : list (obj V)) j : Forall obj_ok e -> Forall obj_ok (delete j e).
Proof. apply Forall_delete. Qed.
Lemma icall_same J (st : qi_st J) hs w :
  (icall_act (V := V) J st hs CNext w).2 = w /\ (icall_act J st hs CNextId w).2 = w /\
  (forall id, (icall_act J st hs (CFromId id) w).2 = w) /\ (icall_act J st hs CHint w).2 = w.
Proof.
  unfold icall_act. cbn [own_writes run_call]. split; [|split; [|split]].
  - destruct (qi_next J w st) as [[oi| | |] st']; try done. by destruct (read_item w oi).
  - destruct (qi_next_id J w st) as [[[[i it]|]| | |] st']; try done. by destruct (deref w it).
  - intros id. destruct (qi_from_id J w id st) as [[oi| | |] st']; try done. by destruct (read_item w oi).
  - by destruct (qi_hint J w st).
Qed.
Lemma wp_compile c e : Forall obj_ok e -> client_ok (map obj_holds e) c -> WT (all_holds e) (compile e c).
Proof.
  revert e. induction c as [|o k IH|id k IH|k IH|n k IH|j t v k IH|j t k IH|j t vs k IH|t x k IH|t id x k IH|r x k IH|j o k IH|q k IH|j c k IH|j k IH];
    intros e He Hc; cbn [compile]; cbn [client_ok] in Hc;
    try change (concat (map obj_holds e)) with (all_holds e) in Hc.
  - by apply wt_stop.
  - destruct Hc as [Ho Hk]. eapply (wt_catch _ _ _ (fun _ m => m = [])).
    + by apply wp_call.
    + intros a m m' -> ->%Permutation_nil_r. by apply IH.
    + apply IH; [done|]; apply (Hk Panic).
  - destruct Hc as [Ho Hk]. eapply (wt_catch _ _ _ (fun b m => m = if (b : bool) then [(LMan, false)] else [])).
    + by apply wp_entity.
    + intros [|] m m' -> HP; (eapply wp_perm; [by rewrite HP|]);
        [|apply (IH (Ret false) e); [done|apply (Hk (Ret false))]].
      apply (IH (Ret true) (JEntity id :: e)); [by constructor|apply (Hk (Ret true))].
    + apply IH; [done|]; apply (Hk Panic).
  - destruct Hc as [Ho Hk]. eapply (wt_catch _ _ _ (fun b m => m = [(LMan, false)])).
    + by apply wp_new_entity.
    + intros id m m' -> HP. eapply wp_perm; [by rewrite HP|].
      apply (IH (Ret id) (JEntity id :: e)); [by constructor|apply (Hk (Ret id))].
    + apply IH; [done|]; apply (Hk Panic).
  - destruct Hc as [Ho Hk]. eapply (wt_catch _ _ _ (fun b m => m = [(LMan, false)])).
    + by apply wp_new_entities.
    + intros [lo hi] m m' -> HP. eapply wp_perm; [by rewrite HP|].
      apply (IH (Ret (lo, hi)) (JEntities lo hi :: e)); [by constructor|apply (Hk (Ret (lo, hi)))].
    + apply IH; [done|]; apply (Hk Panic).
  - destruct Hc as [Ho Hk]. destruct (e !! j) as [[id| | | |]|] eqn:Ej; try apply wt_stop.
    eapply (wt_catch _ _ _ (fun _ m => m = [])).
    + by apply wp_handle_attach.
    + intros a m m' -> ->%Permutation_nil_r. apply IH; [done|]. apply (Hk (Ret a)).
    + apply (wp_rels _ _ _ _ _ _ [(LMan, false)] _ (all_holds (delete j e))); [by apply (all_delete _ _ _ Ej)|].
      apply IH; [by apply delete_ok|]. rewrite map_delete. apply (Hk Panic).
  - destruct Hc as [Ho Hk]. destruct (e !! j) as [[id| | | |]|] eqn:Ej; try apply wt_stop.
    eapply (wt_catch _ _ _ (fun _ m => m = [])).
    + by apply wp_handle_detach.
    + intros a m m' -> ->%Permutation_nil_r. by apply IH.
    + apply IH; [done|]; apply (Hk Panic).
  - destruct Hc as [Ho Hk]. destruct (e !! j) as [[|lo hi| | |]|] eqn:Ej; try apply wt_stop.
    eapply (wt_catch _ _ _ (fun _ m => m = [])).
    + by apply wp_batch.
    + intros a m m' -> ->%Permutation_nil_r. apply IH; [done|]. apply (Hk (Ret a)).
    + apply (wp_rels _ _ _ _ _ _ [(LMan, false)] _ (all_holds (delete j e))); [by apply (all_delete _ _ _ Ej)|].
      apply IH; [by apply delete_ok|]. rewrite map_delete. apply (Hk Panic).
  - destruct Hc as [Ho Hk]. split.
    { apply piece_read; [done|]. intros w w' _ [Hs _]. simpl. by rewrite (shape_has _ _ t Hs). }
    intros w [Hs _]. cbn [fst]. destruct (has_registered t w); [|apply (IH false e); [done|apply (Hk false)]].
    split; [by rewrite app_nil_r|]. apply (IH true (JStore t x :: e)); [by constructor|apply (Hk true)].
  - destruct Hc as [Ho Hk]. split.
    { apply piece_read; [done|]. intros w w' _ [Hs _]. simpl. by rewrite (shape_has _ _ t Hs). }
    intros w [Hs _]. cbn [fst]. destruct (has_registered t w); [|apply (IH false e); [done|apply (Hk false)]].
    split; [by rewrite app_nil_r|]. split.
    { apply piece_read; [done|]. intros u u' _ [_ Ha]. simpl. unfold storage_has. by rewrite (Ha (LStore t) x (elem_of_list_here _ _)). }
    intros u _. cbn [fst]. destruct (storage_has u id t).
    + apply (IH true (JStore t x :: e)); [by constructor|apply (Hk true)].
    + split; [left|]. rewrite drop_hold_head. apply (IH false e); [done|apply (Hk false)].
  - destruct Hc as [Ho Hk]. split.
    { apply piece_read; [done|]. intros w w' _ [Hs _]. simpl. by rewrite (res_shape r _ _ Hs). }
    intros w [Hs _]. cbn [fst]. destruct (has_res r w); [|apply (IH false e); [done|apply (Hk false)]].
    split; [by rewrite app_nil_r|]. apply (IH true (JRes r x :: e)); [by constructor|apply (Hk true)].
  - rename Hc into Hk. destruct (e !! j) as [ob|] eqn:Ej; [|apply wt_stop]. destruct (through ob o) eqn:Et; [|apply wt_stop].
    apply through_guard in Et as [Hg Ht].
    assert (forall y, y ∈ obj_holds ob -> y ∈ all_holds e) as Hin.
    { intros y Hy. rewrite (all_delete _ _ _ Ej). apply elem_of_app. by left. }
    eapply (wt_catch _ _ _ (fun _ m => m = [])).
    + apply wp_step; [|done|done]. change ([] ++ all_holds e) with (all_holds e).
      destruct Ht as [(t & x & Hx & Hr & ->)|[(t & Hx & Hr & ->)|[(r & x & Hx & ->)|(r & v & Hx & ->)]]].
      * eapply piece_read_op; [done|]. by apply Hin.
      * eapply piece_write_op; [done|]. by apply Hin.
      * eapply piece_read_res. by apply Hin.
      * eapply piece_write_res. by apply Hin.
    + intros a m m' -> ->%Permutation_nil_r. by apply IH.
    + apply IH; [done|]; apply (Hk Panic).
  - destruct Hc as (Ho & Hp & Hk). eapply (wt_catch _ _ _ (fun x m => m = q_locks q /\ x.2 = q_locks q /\ iter_ok (q_locks q) x.1)).
    + apply wp_open; [done|done|]. intros J HJ. split; [by rewrite app_nil_r|done].
    + intros [J hs] m m' (-> & -> & HJ) HP. eapply wp_perm; [by rewrite HP|].
      apply (IH (Ret tt) (JIter J (qi_init J) (q_locks q) :: e)); [by constructor|apply (Hk (Ret tt))].
    + apply IH; [done|]; apply (Hk Panic).
  - destruct (e !! j) as [[| | | |J st hs]|] eqn:Ej; try apply wt_stop.
    assert (iter_ok hs J) as (HL & HT & HF). { by apply (proj1 (Forall_lookup _ _) He j _ Ej). }
    assert (forall y, y ∈ hs -> y ∈ all_holds e) as Hin.
    { intros y Hy. rewrite (all_delete _ _ _ Ej). apply elem_of_app. by left. }
    assert (forall o st', WT (all_holds e) (compile (<[j := JIter J st' hs]> e) (k o))) as Hgo.
    { intros o st'. assert (map obj_holds (<[j := JIter J st' hs]> e) = map obj_holds e) as E.
      { transitivity (<[j := hs]> (map obj_holds e)); [apply (list_fmap_insert obj_holds e j (JIter J st' hs))|].
        apply list_insert_id. rewrite list_lookup_fmap, Ej. done. }
      pose proof (IH o (<[j := JIter J st' hs]> e)) as H. unfold all_holds in *. rewrite E in H. apply H; [|apply Hc].
      by apply Forall_insert. }
    split.
    { rewrite app_nil_r. split; [by apply (confined_icall w0 hs)|]. intros w _.
      destruct c as [| |id| |g]; cbn [own_writes]; try apply (icall_same J st hs w).
      apply rewritten_values. }
    intros w [Hs Hg]. pose proof (call_term J (own_writes hs c) w st HF) as N.
    assert (pl -> forall o st', (icall_act J st hs c w).1 = Ret (o, st') -> o <> UB) as U.
    { intros H. by apply (icall_good w0 J st hs c w (HT H) Hs (Hg H)). }
    unfold icall_act in U. destruct (run_call J (own_writes hs c) (w, st)) as [o [w' st']]. cbn [fst snd] in *.
    destruct o as [a| | |]; [apply Hgo|apply Hgo| |done]. intros H. by destruct (U H UB st').
  - destruct (e !! j) as [ob|] eqn:Ej; [|apply wt_stop].
    eapply wp_rels; [by apply all_delete|]. apply IH; [by apply delete_ok|]. by rewrite map_delete.
Qed.
End clients.

(** C01-C07, C21-C26 beyond the rules of use: components and plain queries in
    any history, also after calls that break the rules (C15, C31, C32, C34),
    after panics, with groups that are stale, wrong or half made. *)
From stdpp Require Import prelude list gmap.
From Verif Require Import Base Api ModelSparse ModelEntity ModelGroup ModelWorld ModelQuery ModelStep SpecConc
  Spec History Rules ProofSparse ProofEntity ProofGroup ProofWorld ProofMain ProofHistory ProofHistory2 ProofWf ProofConc ProofConc2 ProofConc5 ProofConc9
  ProofQueryMut ProofQuery3 ProofQuery4 SpecLoose ProofLoose ProofLoose2 PropEntity PropComp PropQuery PropSafe.

Section any.
Context {V : Type}.
Implicit Types (ops : list (op V)) (t id : nat) (v : V) (w : world V) (q : query).

Lemma loose_nil : loose ([] : list (op V)).
Proof. intros [] ? ? E; discriminate E. Qed.
Lemma loose_snoc ops o : loose (ops ++ [o]) <-> loose ops /\ loose_call ops o.
Proof.
  split.
  - intros H. split; [|by apply (H ops o [])]. intros pre o' post ->. apply (H pre o' (post ++ [o])). by rewrite <- app_assoc.
  - intros [H Ho] pre o' post E. destruct post as [|x post _] using rev_ind.
    + apply app_inj_tail in E as [-> ->]. done.
    + rewrite app_comm_cons, app_assoc in E. apply app_inj_tail in E as [-> _]. by apply (H pre o' post).
Qed.
Lemma answer_has ops t : answer ops (HasRegistered t) = Ret (OBool (has_registered t (after ops))).
Proof. reflexivity. Qed.
Lemma answer_query ops q : answer ops (Query q) = match run_query (after ops) q with Ret l => Ret (OItems l) | Panic => Panic | UB => UB | Block => Block end.
Proof. unfold answer. cbn [step]. rewrite bind_get, fmapM_fst. done. Qed.
Lemma query_keeps w q : (step (Query q) w).2 = w.
Proof. cbn [step]. rewrite bind_get, fmapM_snd. done. Qed.
Lemma answer_read ops t id : good (after ops) -> answer ops (ReadComp t id) = Ret (OVal (wvalue (after ops) t id)).
Proof.
  intros G. unfold answer. cbn [step]. rewrite fmapM_fst. unfold entity_component_read, components_read, wvalue. rewrite bind_get.
  destruct (w_comps (after ops) !! t) as [st|] eqn:E; [|done]. destruct (gd_st _ G t st E) as [Hty W]. rewrite Hty, Nat.eqb_refl, bind_lift.
  destruct (ss_exist (st_set st) id) eqn:Ex.
  - apply exist_pos in Ex as [k Hk]. rewrite (get_unchecked_wf _ _ _ W Hk), bind_lift. unfold ss_lookup. rewrite Hk.
    pose proof (proj1 (wf_pos _ W _ _) Hk) as Hk'. apply lookup_lt_Some in Hk'. rewrite (wf_len _ W) in Hk'.
    apply lookup_lt_is_Some_2 in Hk' as [x Hx]. by rewrite Hx.
  - apply exist_lookup_false in Ex; [|done]. by rewrite Ex.
Qed.
Lemma loose_step ops o : loose_call ops o -> good (after ops) ->
  tame (after ops) o \/ ((exists q, o = Query q) /\ (step o (after ops)).1 <> UB).
Proof.
  intros H G. destruct o; try (by left); cbn [loose_call tame] in *.
  - left. intros id st Hid Hst. destruct H as [_ H]. specialize (H id Hid). destruct (ss_exist (st_set st) id) eqn:E; [|done]. exfalso. apply H.
    unfold answer. cbn [step]. unfold fmapM, via_storage, bind, get, lift, components_read, ret. rewrite Hst.
    destruct (gd_st _ G t st Hst) as [-> _]. rewrite Nat.eqb_refl. cbn [fst]. by rewrite E.
  - destruct H as [H|H]; [by left|right]. split; [by eexists|exact H].
Qed.
(** ** The invariant: the storages stay well formed, no call was undefined
    behaviour, each call had its effect on the components. *)
Lemma loose_inv ops : loose ops -> good (after ops) /\ (forall t, wvalue (after ops) t 0 = None) /\ Forall (fun ev => ev.2 <> UB) (seen ops).
Proof.
  induction ops as [|o ops IH] using rev_ind; intros L. { split; [apply good_new|]. split; [done|constructor]. }
  apply loose_snoc in L as [L Lo]. destruct (IH L) as (G & H0 & HU). rewrite after_snoc, seen_snoc. destruct (loose_step ops o Lo G) as [T|[[q ->] Hu]].
  - destruct (good_step _ _ G T) as [G' N]. split; [done|]. split; [|apply Forall_app; split; [done|by constructor]].
    intros t. pose proof (step_values (after ops) o t 0 G T H0) as K.
    assert (effect_on (fun o => (step o (after ops)).1) o t 0 (wvalue (after ops) t 0) (wvalue (step o (after ops)).2 t 0)) as K'.
    { apply K. intros i ord -> u Hu. apply Lo. rewrite answer_has. by rewrite Hu. }
    clear K. rewrite H0 in K'. revert K'. generalize (wvalue (step o (after ops)).2 t 0). intros new. unfold effect_on.
    destruct o; try done; cbn [loose_call] in Lo.
    + match goal with |- context [match ?e with Ret _ => _ | _ => _ end] => destruct e end; [destruct (decide _)|..]; try done; intros [?|(_ & _ & ?)]; done.
    + rewrite decide_False by (intros (_ & ? & _); lia). done.
    + match goal with |- match ?e with _ => _ end -> _ => destruct e end; try done. by destruct (decide _).
    + match goal with |- match ?e with _ => _ end -> _ => destruct e end; try done. rewrite decide_False by (intros (_ & ?); lia). done.
    + match goal with |- match ?e with _ => _ end -> _ => destruct e as [[]| | |] end; try done. destruct (decide _) as [[_ ?]|]; [lia|]. by destruct b.
    + match goal with |- match ?e with _ => _ end -> _ => destruct e as [[]| | |] end; try done. destruct (decide _) as [[_ ?]|]; [lia|]. by destruct b.
    + match goal with |- match ?e with _ => _ end -> _ => destruct e as [[]| | |] end; try done. destruct b; [|done].
      rewrite decide_False; [done|]. unfold at_place. cbn [step]. rewrite bind_get, fmapM_fst. unfold lift. cbn [fst]. intros [_ H].
      destruct (w_comps (after ops) !! t0) as [st|] eqn:E.
      * destruct (place_entities _ t0 st G H0 E) as (l & El & El'). rewrite El, El' in H. apply (zero_entities _ G H0 t0 st E). by eapply elem_of_list_lookup_2.
      * unfold run_query in H. cbn [query_open] in H. unfold has_registered in H. rewrite bind_assert_false in H; [done|]. rewrite E. done.
    + match goal with |- match ?e with _ => _ end -> _ => destruct e as [[]| | |] end; try done. by destruct (decide _).
  - rewrite query_keeps. split; [done|]. split; [done|]. apply Forall_app. split; [done|]. by constructor.
Qed.

(** ** C33: no call of such a history is undefined behaviour *)
Theorem C33_any_history ops : loose ops -> forall o r, (o, r) ∈ seen ops -> r <> UB.
Proof. intros (_ & _ & H)%loose_inv o r Hin. rewrite Forall_forall in H. by apply (H _ Hin). Qed.

(** ** C01, C02, C26: the components of every entity after every call

    Reading always answers; each call of the history has on each component of
    each entity exactly the effect [effect_on] (SpecLoose.v) says, whatever
    was called before and however the call ends. *)
Theorem C02_any_history ops o t id : loose (ops ++ [o]) ->
  exists old new, answer ops (ReadComp t id) = Ret (OVal old) /\ answer (ops ++ [o]) (ReadComp t id) = Ret (OVal new) /\
    effect_on (answer ops) o t id old new.
Proof.
  intros L. pose proof (loose_inv _ L) as (G' & _ & _). apply loose_snoc in L as [L Lo]. destruct (loose_inv _ L) as (G & H0 & _).
  exists (wvalue (after ops) t id), (wvalue (after (ops ++ [o])) t id). split; [by apply answer_read|]. split; [by apply answer_read|].
  rewrite after_snoc in *. destruct (loose_step ops o Lo G) as [T|[[q ->] Hu]].
  - apply step_values; try done. intros i ord -> u Hu. apply Lo. by rewrite answer_has, Hu.
  - rewrite query_keeps. unfold effect_on. reflexivity.
Qed.
(** [make_group], whatever types it is given and whether it succeeds, panics
    halfway or waits for itself, changes no component. *)
Theorem C26_any_history ops k a b t id : loose ops ->
  answer (ops ++ [MakeGroup k a b]) (ReadComp t id) = answer ops (ReadComp t id).
Proof.
  intros L. destruct (C02_any_history ops (MakeGroup k a b) t id) as (old & new & -> & -> & E); [by apply loose_snoc|].
  unfold effect_on in E. by rewrite E.
Qed.

Lemma torn_snoc ops o id : ~ torn (ops ++ [o]) id -> ~ torn ops id.
Proof. intros H (pre & o' & post & -> & E). apply H. exists pre, o', (post ++ [o]). split; [by rewrite <- app_assoc|done]. Qed.
Lemma attach_ret ops t id v r : answer ops (Attach t id v) = Ret r ->
  yes (answer ops (Exist id)) = true /\ yes (answer ops (HasRegistered t)) = true.
Proof.
  unfold answer. cbn [step]. rewrite !bind_get, !fmapM_fst. unfold lift, ret. cbn [fst]. unfold attach_component. rewrite bind_get.
  destruct (exist id (after ops)) as [[]| | |]; try discriminate. rewrite bind_lift, bind_assert_true by done. unfold entity_attach. rewrite bind_get.
  destruct (has_registered t (after ops)); [done|]. rewrite bind_assert_false by done. discriminate.
Qed.
(** A component reads as the last value given to it by the calls of the
    history that returned. *)
Theorem C01_any_history ops t id : loose ops -> ~ torn ops id ->
  answer ops (ReadComp t id) = Ret (OVal (value_of (seen ops) t id)).
Proof.
  induction ops as [|o ops IH] using rev_ind; intros L N. { rewrite answer_read by apply good_new. done. }
  destruct (C02_any_history ops o t id L) as (old & new & E1 & E2 & E). pose proof L as [L' Lo]%loose_snoc.
  specialize (IH L' (torn_snoc _ _ _ N)). rewrite IH in E1. injection E1 as E1. rewrite E2. do 2 f_equal.
  rewrite seen_snoc, value_snoc, E1. unfold effect_on in E.
  assert (forall P : Prop, tears (answer ops) o id -> P) as N'.
  { intros P H. destruct N. exists ops, o, []. split; [reflexivity|exact H]. }
  clear N. unfold tears in N'. unfold comp_event. destruct o as [| | | | | | | | | | | | | | | | |t0 k0 v0| | | | | |]; try exact E; try (clear - E; revert E; destruct (answer ops _) as [[| | | | | | | | | |]| | |]; intros E; solve [exact E | destruct b; exact E]).
  - revert N' E. generalize (answer ops (RemoveEntity id0 ord)). intros [r| | |] N' E; [exact E|..].
    all: destruct E as [E|(H1 & H2 & _)]; [exact E|]. all: apply N'; split; done.
  - pose proof (attach_ret ops t0 id0 v) as K. revert K N' E. generalize (answer ops (Attach t0 id0 v)). intros [r| | |] K N' E.
    + destruct (K r eq_refl) as [K1 K2]. rewrite K1, K2 in E. rewrite E.
      destruct (decide (t0 = t /\ id0 = id)) as [[-> ->]|]; [by rewrite decide_True|by rewrite decide_False by tauto].
    + destruct (decide _) as [(? & ? & ? & ?)|]; [|exact E]. apply N'. done.
    + destruct (decide _) as [(? & ? & ? & ?)|]; [|exact E]. apply N'. done.
    + destruct (decide _) as [(? & ? & ? & ?)|]; [|exact E]. apply N'. done.
  - revert N' E. generalize (answer ops (StoreDataSet t0 k0 v0)). intros [[]| | |] N' E; try exact E. destruct b; [|exact E].
    destruct (decide _) as [[? ?]|]; [|exact E]. by apply N'.
Qed.

(** The value a detach gives back is the component the entity had. *)
Lemma remove_result (s : sset V) i x s' : ss_wf s -> ss_remove i s = (Ret x, s') -> x = ss_lookup s i.
Proof.
  intros W E. destruct (ss_get_index s i) as [k|] eqn:Ek.
  - destruct (remove_spec i k _ W Ek) as (v & s2 & E' & K & _). rewrite E' in E. injection E as <- _. done.
  - unfold ss_lookup. rewrite Ek. destruct (decide (i = length (indices s))) as [Hl|Hl].
    + rewrite (remove_spec_Panic i s Hl) in E. discriminate E.
    + rewrite (remove_spec_None i s Ek Hl) in E. by injection E.
Qed.
Theorem C04_detached_any_history ops t id x : loose ops -> answer ops (Detach t id) = Ret (OVal x) -> answer ops (ReadComp t id) = Ret (OVal x).
Proof.
  intros L E. destruct (loose_inv _ L) as (G & _ & _). rewrite answer_read by done. unfold answer in E. cbn [step] in E. rewrite fmapM_fst in E. revert E.
  unfold detach_component. rewrite bind_get. destruct (exist id (after ops)) as [b| | |]; try discriminate.
  rewrite bind_lift. destruct b; [|rewrite bind_assert_false by done; discriminate]. rewrite bind_assert_true by done.
  unfold entity_detach. rewrite bind_get. destruct (has_registered t (after ops)); [|rewrite bind_assert_false by done; discriminate]. rewrite bind_assert_true by done.
  unfold bind. destruct (mv_each None (groups_with t (w_groups (after ops)) 0) _ (fun j => mv_leave j id) _ G) as [G2 H2].
  destruct (for_each _ _ (after ops)) as [[[]| | |] w1]; cbn [fst snd] in *; try discriminate.
  assert (wvalue w1 t id = wvalue (after ops) t id) as <- by (by destruct (H2 t id) as [|[? _]]).
  unfold storage_mut, wvalue. destruct (w_comps w1 !! t) as [st|] eqn:Hst; cbn [fst]; [|discriminate].
  destruct (gd_st w1 G2 t st Hst) as [Hty W]. rewrite Hty, Nat.eqb_refl. destruct (ss_remove id (st_set st)) as [[y| | |] s'] eqn:Er; cbn [fst]; try discriminate.
  intros [= <-]. do 2 f_equal. symmetry. by eapply remove_result.
Qed.

(** ** Queries *)

(** A history keeping to the rules that looks the same to plain queries. *)
Lemma lookalike ops : loose ops -> exists ops', rules ops' /\ csame (after ops) (after ops') /\
  reads ops (value_of (seen ops')) /\ forall t, t ∈ types_of (seen ops') <-> answer ops (HasRegistered t) = Ret (OBool true).
Proof.
  intros L. destruct (loose_inv _ L) as (G & H0 & _). destruct (same_components _ G (zero_entities _ G H0)) as (ops' & Hh & Hs).
  exists ops'. pose proof (harmless_rules ops' a_init Hh) as L'. destruct (reached ops' L') as [HR A]. split; [done|]. split; [done|]. split.
  - intros t id. rewrite answer_read by done. by rewrite (ag_val _ _ A), (wvalue_csame _ _ t id Hs), (wvalue_comp _ _ t id HR).
  - intros t. rewrite (ag_reg _ _ A), answer_has, (csame_reg _ _ t Hs). unfold has_registered, registered.
    pose proof (R_st _ _ HR t) as S. split.
    + intros [m Hm]. rewrite Hm in S. destruct (w_comps (after ops') !! t); [done|done].
    + intros [= H%bool_decide_eq_true]. destruct H as [st Hst]. rewrite Hst in S. destruct (a_comps (aexec ops' a_init) !! t) as [m|] eqn:E; [by exists m|done].
Qed.
Lemma like_answers ops ops' q l : csame (after ops) (after ops') -> q_plain q = true -> answers ops q l <-> answers ops' q l.
Proof. intros Hs Hp. rewrite !answers_run. by rewrite (run_query_csame _ _ q Hp Hs). Qed.
Lemma like_fine ops ops' q : (forall t, t ∈ types_of (seen ops') <-> answer ops (HasRegistered t) = Ret (OBool true)) ->
  q_plain q = true -> all_registered ops q -> ~ q_conflict q -> q_fine (seen ops') q.
Proof. intros Ht Hp Hr Hc. apply plain_fine; [done|]. split; [|done]. intros t m Hin. by apply Ht, (Hr t m). Qed.

(** C03, C21: one type.  Its storage holds each entity having the component
    once, with its component; [data()], the count and the query agree, and
    [data_mut()] reaches the same components. *)
Theorem C21_any_history ops : loose ops -> exists val, reads ops val /\ forall t, answer ops (HasRegistered t) = Ret (OBool true) ->
  exists es vs, layout ops t es vs /\ NoDup es /\ (forall id, id ∈ es <-> is_Some (val t id)) /\
    Forall2 (fun id v => val t id = Some v) es vs /\
    answer ops (StoreCount t) = Ret (ONatOpt (Some (length es))) /\
    answer ops (StoreIsEmpty t) = Ret (OBoolOpt (Some (bool_decide (es = [])))) /\
    (forall id, answer ops (StoreGet t id) = Ret (OValOpt (Some (val t id))) /\
       answer ops (StoreExist t id) = Ret (OBoolOpt (Some (bool_decide (is_Some (val t id)))))) /\
    (forall m, answers ops (QRef m t) (zip es (VLeaf <$> vs))) /\
    (forall i id v, es !! i = Some id -> step (StoreDataSet t i v) (after ops) = step (StoreGetMut t id v) (after ops)) /\
    (forall i v, length es <= i -> step (StoreDataSet t i v) (after ops) = (Panic, after ops)).
Proof.
  intros L. destruct (lookalike ops L) as (ops' & L' & Hs & Hv & Ht). exists (value_of (seen ops')). split; [done|]. intros t Hr.
  destruct (loose_inv _ L) as (G & H0 & _). apply Ht in Hr. destruct (C21_ref_exact ops' true t L' Hr) as (es & vs & La & N & Hes & F & Qt).
  destruct (reg_storage ops' t L' Hr) as (s' & m' & Hs' & _ & Rs'). pose proof (rep_wf _ _ _ Rs') as W'.
  destruct (layout_det _ _ _ _ _ _ La (layout_exact _ _ _ L' Hs' W')) as [-> ->].
  pose proof (Hs t) as Hst. rewrite Hs' in Hst. destruct (w_comps (after ops) !! t) as [st|] eqn:E; [|done]. cbn [st_ty st_set] in Hst.
  destruct Hst as (Hty & He & Hd & Hi). rewrite <- He, <- Hd in *. destruct (gd_st _ G t st E) as [_ W].
  assert (components_read t (after ops) = Ret (Some (st_set st))) as Hc by (unfold components_read; by rewrite E, Hty, Nat.eqb_refl).
  assert (forall id, value_of (seen ops') t id = ss_lookup (st_set st) id) as Hval.
  { intros id. pose proof (Hv t id) as K. rewrite answer_read in K by done. unfold wvalue in K. rewrite E in K. by injection K. }
  assert (forall A (f : sset V -> outcome A) (g : option A -> out V), (fmapM g (via_storage t f) (after ops)).1 =
     match f (st_set st) with Ret x => Ret (g (Some x)) | Panic => Panic | UB => UB | Block => Block end) as Hvia.
  { intros A f g. rewrite fmapM_fst. unfold via_storage. rewrite bind_get, Hc, bind_lift. unfold bind, lift. by destruct (f (st_set st)). }
  exists (entities (st_set st)), (sdata (st_set st)). split_and!; try done.
  - split; [apply W|]. split; [unfold answer; cbn [step]; by rewrite Hvia|].
    apply (like_answers ops ops' (QRef false t)); [done|done|]. destruct La as (_ & _ & Q). exact Q.
  - unfold answer. cbn [step]. by rewrite Hvia.
  - unfold answer. cbn [step]. rewrite Hvia. do 3 f_equal. unfold ss_is_empty. by destruct (entities (st_set st)).
  - intros id. unfold answer. cbn [step]. rewrite !Hvia. rewrite Hval. split.
    + unfold ss_get, ss_lookup, ss_get_index. destruct (indices (st_set st) !! id) as [[k|]|] eqn:Ek; [|done..].
      destruct (wf_idx_inv _ _ k W Ek) as [_ Hk%lookup_lt_Some]. rewrite (wf_len _ W) in Hk. by destruct (lookup_lt_is_Some_2 _ _ Hk) as [x ->].
    + do 3 f_equal. apply eq_true_iff_eq. rewrite bool_decide_eq_true. by apply exist_lookup.
  - intros m. apply (like_answers ops ops' (QRef m t)); [done|done|]. destruct (C21_ref_exact ops' m t L' Hr) as (es & vs & La' & _ & _ & _ & Qm).
    destruct (layout_det _ _ _ _ _ _ La' (layout_exact _ _ _ L' Hs' W')) as [-> ->]. rewrite <- He, <- Hd in Qm. unfold answers, answer. by rewrite Qm.
  - intros i id v Hk. pose proof (proj2 (wf_pos _ W id i) Hk) as Hk'.
    assert ((i <? length (sdata (st_set st))) = true) as Hlt by (apply Nat.ltb_lt; rewrite <- (wf_len _ W); by eapply lookup_lt_Some).
    assert (storage_data_set t i v (after ops) = storage_get_mut t id v (after ops)) as Eq.
    { unfold storage_data_set, storage_get_mut. rewrite !bind_get, Hc, !bind_lift.
      rewrite (get_loc_wf _ _ W), bind_lift, Hk'. by rewrite bind_assert_true. }
    simpl step. unfold fmapM, bind. by rewrite Eq.
  - intros i v Hk. simpl. unfold fmapM, storage_data_set, bind, get, lift. rewrite Hc.
    assert ((i <? length (sdata (st_set st))) = false) as -> by (apply Nat.ltb_ge; rewrite <- (wf_len _ W); lia). done.
Qed.

(** C22-C24: any plain query of registered types without a conflict. *)
Theorem C24_any_history ops : loose ops -> exists val, reads ops val /\
  forall q, q_plain q = true -> all_registered ops q -> ~ q_conflict q ->
  exists l, answers ops q l /\ exactly (q_sem val q) l /\ forall cs, use ops q cs = Ret (q_calls (knows_size q) q val l.*1 cs).
Proof.
  intros L. destruct (lookalike ops L) as (ops' & L' & Hs & Hv & Ht). exists (value_of (seen ops')). split; [done|]. intros q Hp Hr Hc.
  destruct (C24_iterator_calls_partial ops' q L' (like_fine _ _ _ Ht Hp Hr Hc)) as (l & E & X & U). exists l.
  split; [by apply (like_answers ops ops')|]. split; [done|]. intros cs. rewrite <- U. unfold use. by apply use_csame.
Qed.
Lemma plain_parts q p : q_plain q = true -> p ∈ parts q -> q_plain p = true.
Proof.
  destruct q; simpl; rewrite ?andb_true_iff; intros H Hin; destruct_and?; repeat (apply elem_of_cons in Hin as [->|Hin]; [done|]); by apply elem_of_nil in Hin.
Qed.
Theorem C22_any_history ops q : loose ops -> q_plain q = true -> all_registered ops q -> ~ q_conflict q -> is_tuple q = true ->
  exists l la ls, answers ops q l /\ Forall2 (answers ops) (parts q) (la :: ls) /\
    l.*1 = filter (fun id => Forall (fun lp => id ∈ lp.*1) ls) la.*1 /\
    NoDup l.*1 /\
    forall id (v : vtree V), (id, v) ∈ l <->
      exists xs, tuple_of xs = Some v /\ Forall2 (fun lp x => (id, x) ∈ lp) (la :: ls) xs.
Proof.
  intros L Hp Hr Hc T. destruct (lookalike ops L) as (ops' & L' & Hs & Hv & Ht).
  destruct (C22_tuple_join_partial ops' q L' (like_fine _ _ _ Ht Hp Hr Hc) T) as (l & la & ls & H1 & H2 & H3). exists l, la, ls.
  split; [by apply (like_answers ops ops')|]. split; [|done].
  apply Forall2_same_length_lookup. pose proof (Forall2_length _ _ _ H2) as Hl. split; [done|]. intros i p x Hi Hx.
  apply (like_answers ops ops'); [done|apply (plain_parts q); [done|by eapply elem_of_list_lookup_2]|]. by apply (Forall2_lookup_lr _ _ _ _ _ _ H2 Hi Hx).
Qed.
Theorem C23_any_history ops q a b : loose ops -> q_plain q = true -> all_registered ops q -> ~ q_conflict q ->
  q = QWithoutR a b \/ q = QWithoutL b a ->
  exists l la lb, answers ops q l /\ answers ops a la /\ answers ops b lb /\ l = filter (fun p => p.1 ∉ lb.*1) la.
Proof.
  intros L Hp Hr Hc Hq. destruct (lookalike ops L) as (ops' & L' & Hs & Hv & Ht).
  destruct (C23_without_partial ops' q a b L' (like_fine _ _ _ Ht Hp Hr Hc) Hq) as (l & la & lb & H1 & H2 & H3 & H4). exists l, la, lb.
  assert (q_plain a = true /\ q_plain b = true) as [Ha Hb] by (destruct Hq as [-> | ->]; simpl in Hp; apply andb_true_iff in Hp; tauto).
  split_and!; [..|done]; by apply (like_answers ops ops').
Qed.
(** otherwise it panics or waits for itself, and nothing changes *)
Theorem C22_not_fine_any_history ops q : loose ops -> q_plain q = true ->
  (all_registered ops q -> q_conflict q -> step (Query q) (after ops) = (Block, after ops)) /\
  (~ all_registered ops q -> ~ q_conflict q -> step (Query q) (after ops) = (Panic, after ops)) /\
  (~ all_registered ops q ->
     step (Query q) (after ops) = (Panic, after ops) \/ step (Query q) (after ops) = (Block, after ops)).
Proof.
  intros L Hp. destruct (lookalike ops L) as (ops' & L' & Hs & Hv & Ht).
  assert (q_undisturbed (seen ops') q) as U by (intros a b; rewrite (plain_groups _ Hp); by intros ?%elem_of_nil).
  assert (q_known (seen ops') q <-> all_registered ops q) as K.
  { unfold q_known, all_registered. rewrite (plain_groups _ Hp). split; [intros [H _] t m Hin; by apply Ht, (H t m)|].
    intros H. split; [intros t m Hin; by apply Ht, (H t m)|by intros g ?%elem_of_nil]. }
  assert (forall r, step (Query q) (after ops') = (r, after ops') -> step (Query q) (after ops) = (r, after ops)) as T.
  { intros r. cbn [step]. rewrite !bind_get. unfold fmapM, bind, lift. rewrite (run_query_csame _ _ q Hp Hs). intros E. apply (f_equal fst) in E. cbn in E. 
    destruct (run_query (after ops') q); cbn in E; subst r; reflexivity. }
  destruct (C22_not_fine ops' q L' U) as (A1 & A2 & A3). rewrite K in A1, A2, A3. split_and!; [auto..|]. intros H. destruct (A3 H); auto.
Qed.
(** C25: rewriting through a plain query *)
Theorem C25_any_history ops : loose ops -> exists val, reads ops val /\
  forall q f, q_plain q = true -> all_registered ops q -> ~ q_conflict q ->
  exists l, answers ops q l /\ answer ops (QueryMut q f) = Ret (OItems l) /\
    forall t id, answer (ops ++ [QueryMut q f]) (ReadComp t id) =
      Ret (OVal (if decide (id ∈ l.*1 /\ t ∈ q_muts q) then f t id <$> val t id else val t id)).
Proof.
  intros L. destruct (lookalike ops L) as (ops' & L' & Hs & Hv & Ht). exists (value_of (seen ops')). split; [done|]. intros q f Hp Hr Hc.
  destruct (C25_each_written_once_partial ops' q f L' (like_fine _ _ _ Ht Hp Hr Hc)) as (l & E & X & U & _). exists l.
  split; [by apply (like_answers ops ops')|]. assert (answer ops (QueryMut q f) = Ret (OItems l)) as Ea.
  { rewrite <- U. unfold answer. cbn [step]. rewrite !fmapM_fst. destruct (query_mut_csame q f _ _ Hp Hs) as [-> _]. done. }
  split; [done|]. intros t id. destruct (C02_any_history ops (QueryMut q f) t id) as (old & new & E1 & E2 & E3); [by apply loose_snoc|].
  unfold effect_on in E3. rewrite Ea in E3. rewrite (Hv t id) in E1. injection E1 as <-. by rewrite E2, E3.
Qed.
(** the items of a plain query name each component at most once mutably *)
Theorem C25_no_alias_any_history ops q l p p' id id' it it' j j' m m' t i : loose ops -> q_plain q = true ->
  query_items (after ops) q = Ret l ->
  l !! p = Some (id, it) -> l !! p' = Some (id', it') ->
  item_refs it !! j = Some (m, t, i) -> item_refs it' !! j' = Some (m', t, i) ->
  (p, j) <> (p', j') -> m = false /\ m' = false.
Proof.
  intros L Hp. destruct (lookalike ops L) as (ops' & L' & Hs & Hv & Ht). rewrite (query_items_csame _ _ q Hp Hs).
  apply (C25_no_alias_partial ops' q); [done|]. intros a b. rewrite (plain_groups _ Hp). by intros ?%elem_of_nil.
Qed.
End any.

(** ** Concrete cases *)
Section check.
Context {V : Type}.
Definition loose_callb (w : world V) (o : op V) : bool :=
  match o with
  | Attach _ id _ | WriteComp _ id _ | StoreGetMut _ id _ => 1 <=? id
  | RemoveEntity _ ord => forallb (fun t => bool_decide (t ∈ ord)) (map_to_list (w_comps w)).*1
  | BatchAttach lo hi t _ => (1 <=? lo) && forallb (fun id => match (step (StoreExist t id) w).1 with Ret (OBoolOpt (Some true)) => false | _ => true end) (seq lo (hi - lo))
  | Query q => q_plain q || match (step (Query q) w).1 with UB => false | _ => true end
  | QueryMut q _ => q_plain q
  | _ => true
  end.
Fixpoint loose_allb (ops : list (op V)) (w : world V) : bool :=
  match ops with [] => true | o :: ops => loose_callb w o && loose_allb ops (step o w).2 end.
Lemma loose_callb_ok ops o : loose_callb (after ops) o = true -> loose_call ops o.
Proof.
  destruct o; cbn [loose_callb loose_call]; rewrite ?andb_true_iff, ?orb_true_iff, ?Nat.leb_le; try done.
  - intros H t Ht. rewrite answer_has in Ht. injection Ht as Ht%bool_decide_eq_true. destruct Ht as [st Hst].
    apply (bool_decide_eq_true_1 (t ∈ ord)). apply (proj1 (forallb_forall _ _) H). apply elem_of_list_In, elem_of_list_fmap. exists (t, st). split; [done|]. by apply elem_of_map_to_list.
  - intros [H1 H2]. split; [done|]. intros id Hid E.
    assert (id ∈ seq lo (hi - lo)) as Hin by (apply elem_of_seq; lia). apply elem_of_list_In in Hin.
    pose proof (proj1 (forallb_forall _ _) H2 id Hin) as K. cbv beta in K. unfold answer in E. rewrite E in K. discriminate K.
  - intros [H|H]; [by left|right]. intros E. unfold answer in E. rewrite E in H. discriminate H.
Qed.
Lemma looseb_ok (ops : list (op V)) : loose_allb ops w_new = true -> loose ops.
Proof.
  intros H pre o post ->. apply loose_callb_ok. unfold after. revert H. generalize (w_new (V := V)) as w. induction pre as [|a pre IH]; intros w; cbn [loose_allb app exec]; rewrite andb_true_iff; intros [H1 H2]; [done|].
  by apply IH.
Qed.
(** the calls of the history, each with what was known before it *)
Fixpoint untornb (ops : list (op V)) (w : world V) (id : nat) : bool :=
  match ops with
  | [] => true
  | o :: ops =>
      match o, (step o w).1 with
      | Attach _ _ _, Ret _ | RemoveEntity _ _, Ret _ => true
      | Attach _ i _, _ | RemoveEntity i _, _ => negb ((i =? id) && yes (step (Exist i) w).1)
      | StoreDataSet t k _, Ret (OBool true) => negb (bool_decide (at_place (fun o => (step o w).1) t k = Some id))
      | _, _ => true
      end && untornb ops (step o w).2 id
  end.
Lemma untorn_ok (ops : list (op V)) id : untornb ops w_new id = true -> ~ torn ops id.
Proof.
  intros H (pre & o & post & -> & T). unfold answer, after in T. revert H T. generalize (w_new (V := V)) as w.
  induction pre as [|a pre IH]; intros w; cbn [untornb app exec]; rewrite andb_true_iff; intros [H1 H2]; [|by apply IH].
  unfold tears. destruct o; try done.
  - revert H1. generalize (step (RemoveEntity id0 ord) w).1. intros [r| | |] H1; try done; intros [-> E]; rewrite Nat.eqb_refl, E in H1; discriminate H1.
  - revert H1. generalize (step (Attach t id0 v) w).1. intros [r| | |] H1; try done; intros [-> E]; rewrite Nat.eqb_refl, E in H1; discriminate H1.
  - revert H1. match goal with |- context [match ?e with _ => _ end] => generalize e end. intros [[]| | |] H1; try done. destruct b; [|done].
    intros E. rewrite bool_decide_true in H1 by done. discriminate H1.
Qed.
End check.
(** A history breaking all the other rules: groups of types that are not
    registered or twice the same, a batch attach the group does not notice, the
    longest waiting removed id removed again, an entity attached to after its
    removal, an attach stopping midway. *)
Definition wild : list (op nat) :=
  [Register 1; Register 2; CreateEntities 4; MakeGroup KFull 1 2; BatchAttach 1 3 1 [11; 12]; BatchAttach 2 4 2 [22; 23];
   RemoveEntity 4 [1; 2]; RemoveEntity 4 [1; 2]; MakeGroup KNon 2 5; Attach 1 4 14; Attach 2 1 21; StoreDataSet 1 1 112;
   QueryMut (Q2 (QRef true 1) (QRef false 2)) (fun _ id x => x + id); MakeGroup KNon 1 1; RemoveEntity 3 [1; 2]; CreateEntity; Attach 1 4 44].
Lemma wild_loose : loose wild.
Proof. apply looseb_ok. vm_compute. reflexivity. Qed.
Example wild_case : loose wild /\ ~ rules wild /\
  (snd <$> seen wild) = [Ret OUnit; Ret OUnit; Ret (ORange 1 5); Ret OUnit; Ret OUnit; Ret OUnit;
    Ret OUnit; Ret OUnit; Panic; Panic; Panic; Ret (OBool true);
    Ret (OItems [(1, V2 (VLeaf 11) (VLeaf 21)); (2, V2 (VLeaf 112) (VLeaf 22))]);
    Ret OUnit; Panic; Ret (OId 4); Ret OUnit].
Proof.
  split; [apply wild_loose|]. split; [|vm_compute; reflexivity].
  intros (_ & _ & _ & _ & _ & _ & _ & (_ & L & _) & _). apply L. vm_compute. reflexivity.
Qed.
(** C01: entity 4 was not torn; C02: the attach to 1 panicked after writing,
    the panicking removal of 3 took nothing *)
Example C01_any_case : ~ torn wild 4 /\ answer wild (ReadComp 1 4) = Ret (OVal (Some 44)) /\ answer wild (ReadComp 2 1) = Ret (OVal (Some 21)) /\
  answer wild (ReadComp 2 3) = Ret (OVal (Some 23)) /\ answer wild (ReadComp 1 2) = Ret (OVal (Some 114)).
Proof. split; [apply untorn_ok; vm_compute; reflexivity|]. split_and!; vm_compute; reflexivity. Qed.
(** C21-C25: both types are registered; the join of them and the anti-join *)
Example C22_any_case : all_registered wild (Q2 (QRef false 2) (QRef true 1)) /\ ~ q_conflict (Q2 (QRef false 2) (QRef true 1)) /\
  answers wild (Q2 (QRef false 2) (QRef true 1)) [(1, V2 (VLeaf 21) (VLeaf 12)); (2, V2 (VLeaf 22) (VLeaf 114))] /\
  answers wild (QWithoutR (QRef false 2) (QRef false 1)) [(3, VLeaf 23)].
Proof.
  split; [|split; [|split; vm_compute; reflexivity]].
  - intros t m Hin. assert (t = 2 \/ t = 1) as [-> | ->] by (simpl in Hin; set_solver); vm_compute; reflexivity.
  - intros (i & j & t & m & n & Hij & Hi & Hj & _). destruct i as [|[|i]], j as [|[|j]]; cbn in Hi, Hj; try lia; try discriminate; congruence.
Qed.

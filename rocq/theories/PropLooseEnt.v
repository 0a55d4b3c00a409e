(** C08-C18 beyond the rules of use: the ids in any history that does not
    remove the longest waiting removed id again (C15), whatever it does with
    components and groups, also after panics. *)
From stdpp Require Import prelude list gmap.
From Verif Require Import Base Api ModelSparse ModelEntity ModelGroup ModelWorld ModelQuery ModelStep
  Spec History Rules SpecLoose ProofSparse ProofEntity ProofGroup ProofWorld ProofOps ProofRemove ProofMain ProofHistory ProofHistory2 ProofWf ProofConc5 ProofConc9 ProofEm ProofLoose ProofLoose2
  PropEntity PropComp PropLoose.

Section tidy.
Context {V : Type}.
Implicit Types (ops : list (op V)) (t id : nat) (v : V) (w : world V).

Lemma tidy_snoc ops o : tidy (ops ++ [o]) <-> tidy ops /\ (forall i ord, o = RemoveEntity i ord -> 1 <= i /\ last (waiting (seen ops)) <> Some i).
Proof.
  split.
  - intros H. split; [|intros i ord ->; by apply (H ops i ord [])]. intros pre i ord post ->. apply (H pre i ord (post ++ [o])). by rewrite <- app_assoc.
  - intros [H Ho] pre i ord post E. destruct post as [|x post _] using rev_ind.
    + apply app_inj_tail in E as [-> ->]. by apply (Ho i ord).
    + rewrite app_comm_cons, app_assoc in E. apply app_inj_tail in E as [-> _]. by apply (H pre i ord post).
Qed.
Lemma remove_em i ord w :
  (w_em (remove_entity i ord w).2 = w_em w /\ forall r, (remove_entity i ord w).1 <> Ret r) \/
  (exist i w = Ret true /\ (remove_entity i ord w).1 = (em_remove i (w_em w)).1 /\ w_em (remove_entity i ord w).2 = (em_remove i (w_em w)).2).
Proof.
  destruct (remove_entity i ord w) as [r w'] eqn:E. cbn [fst snd]. unfold remove_entity in E. rewrite bind_get in E.
  destruct (exist i w) as [b| | |]; try (injection E as <- <-; left; by split). rewrite bind_lift in E.
  destruct b; [rewrite bind_assert_true in E by done|rewrite bind_assert_false in E by done; injection E as <- <-; left; by split].
  destruct (collect_in_group w i (w_groups w) 0) as [gs| | |]; try (injection E as <- <-; left; by split). rewrite bind_lift in E. unfold bind at 1 in E.
  pose proof (keeps_each gs _ (fun j => keeps_group (V := V) j (full_remove i >>! on_a (cs_remove i) >>! on_b (cs_remove i)) (part_remove i >>! on_a (cs_remove i)) (non_remove i)) w) as K1.
  destruct (for_each gs _ w) as [[[]| | |] w1]; cbn [fst snd] in *; try (injection E as <- <-; left; by split).
  rewrite bind_get in E. unfold bind in E.
  pose proof (keeps_each (storages_with w1 i ord) _ (fun t => keeps_dyn (V := V) t (cs_remove i)) w1) as K2.
  destruct (for_each (storages_with w1 i ord) _ w1) as [[[]| | |] w2]; cbn [fst snd] in *; try (injection E as <- <-; left; split; [congruence|done]).
  right. split; [done|]. unfold on_em in E. rewrite K2, K1 in E. destruct (em_remove i (w_em w)). by injection E as <- <-.
Qed.
Lemma create_same w w' : w_em w = w_em w' -> (step CreateEntity w).1 = (step CreateEntity w').1 /\ w_em (step CreateEntity w).2 = w_em (step CreateEntity w').2.
Proof.
  intros E. cbn [step]. rewrite !fmapM_fst, !fmapM_snd. unfold create_entity, on_em, bind, get, lift, exist. rewrite <- E.
  destruct (em_allocate (w_em w)) as [[x| | |] e']; try done. cbn [w_em set_em]. by destruct (em_has e' x) as [[]| | |].
Qed.
Lemma creates_same n w w' : w_em w = w_em w' -> (step (CreateEntities n) w).1 = (step (CreateEntities n) w').1 /\
  w_em (step (CreateEntities n) w).2 = w_em (step (CreateEntities n) w').2.
Proof.
  intros E. cbn [step]. rewrite !fmapM_fst, !fmapM_snd. unfold create_entities, on_em. rewrite <- E. by destruct (em_allocate_n n (w_em w)).
Qed.
Lemma create_bare w : w_comps (step CreateEntity w).2 = w_comps w /\ w_groups (step CreateEntity w).2 = w_groups w.
Proof.
  cbn [step]. rewrite !fmapM_snd. unfold create_entity, on_em, bind, get, lift. destruct (em_allocate (w_em w)) as [[x| | |] e']; try done.
  by destruct (exist x (set_em e' w)) as [[]| | |].
Qed.
Lemma creates_bare n w : w_comps (step (CreateEntities n) w).2 = w_comps w /\ w_groups (step (CreateEntities n) w).2 = w_groups w.
Proof. cbn [step]. rewrite !fmapM_snd. unfold create_entities, on_em. by destruct (em_allocate_n n (w_em w)). Qed.
Lemma remove_bare i w : w_comps w = ∅ -> w_groups w = [] -> exist i w = Ret true -> remove_entity i [] w = on_em (em_remove i) w.
Proof. intros Hc Hg He. unfold remove_entity. rewrite bind_get, He, bind_lift, bind_assert_true by done. rewrite Hg. done. Qed.
Lemma filter_nothing (l : list nat) : filter (fun i => i ∉ ([] : list nat)) l = l.
Proof. induction l as [|a l IH]; [done|]. rewrite filter_cons_True by (apply not_elem_of_nil). by rewrite IH. Qed.
(** every prefix of [ops] leaves the same entities alive as one of [ops'] *)
Definition pre_same ops ops' : Prop := forall k, exists k', alive (seen (take k ops)) = alive (seen (take k' ops')).
Lemma pre_grow ops o ops' l : pre_same ops ops' -> alive (seen (ops ++ [o])) = alive (seen (ops' ++ l)) -> pre_same (ops ++ [o]) (ops' ++ l).
Proof.
  intros H E k. destruct (decide (k <= length ops)) as [Hk|Hk].
  - rewrite take_app_le by done. destruct (H k) as [k' ->]. exists (k' `min` length ops'). f_equal. f_equal.
    rewrite take_app_le by lia. destruct (decide (k' <= length ops')); [by rewrite Nat.min_l|]. rewrite Nat.min_r by lia. rewrite !take_ge by lia. done.
  - exists (length (ops' ++ l)). rewrite !take_ge; [done|lia|rewrite app_length; cbn; lia].
Qed.
Lemma pre_grow' ops o ops' l : length l <= 1 -> pre_same ops' ops -> alive (seen (ops ++ [o])) = alive (seen (ops' ++ l)) -> pre_same (ops' ++ l) (ops ++ [o]).
Proof.
  intros Hl H E k. destruct (decide (k <= length ops')) as [Hk|Hk].
  - rewrite take_app_le by done. destruct (H k) as [k' ->]. exists (k' `min` length ops). f_equal. f_equal.
    rewrite take_app_le by lia. destruct (decide (k' <= length ops)); [by rewrite Nat.min_l|]. rewrite Nat.min_r by lia. rewrite !take_ge by lia. done.
  - exists (length (ops ++ [o])). rewrite (take_ge (ops' ++ l)), (take_ge (ops ++ [o])); [done|lia|rewrite app_length; lia].
Qed.
Lemma shadow ops : tidy ops -> exists ops' : list (op V), rules ops' /\ w_comps (after ops') = ∅ /\ w_groups (after ops') = [] /\ w_em (after ops) = w_em (after ops') /\
  (alive (seen ops) = alive (seen ops') /\ waiting (seen ops) = waiting (seen ops') /\ handed (seen ops) = handed (seen ops')) /\
  pre_same ops ops' /\ pre_same ops' ops /\ forall n, CreateEntities n ∈ ops' -> CreateEntities n ∈ ops.
Proof.
  induction ops as [|o ops IH] using rev_ind; intros T. { exists []. split_and!; try done; intros k; exists k; done. }
  apply tidy_snoc in T as [T To]. destruct (IH T) as (ops' & L & Hc & Hg & He & (Ha & Hw & Hh) & P1 & P2 & Hnn). clear IH.
  assert (forall l, length l <= 1 -> (forall n, CreateEntities n ∈ l -> o = CreateEntities n) ->
    alive (seen (ops ++ [o])) = alive (seen (ops' ++ l)) /\ waiting (seen (ops ++ [o])) = waiting (seen (ops' ++ l)) /\ handed (seen (ops ++ [o])) = handed (seen (ops' ++ l)) ->
    (alive (seen (ops ++ [o])) = alive (seen (ops' ++ l)) /\ waiting (seen (ops ++ [o])) = waiting (seen (ops' ++ l)) /\ handed (seen (ops ++ [o])) = handed (seen (ops' ++ l))) /\
    pre_same (ops ++ [o]) (ops' ++ l) /\ pre_same (ops' ++ l) (ops ++ [o]) /\ forall n, CreateEntities n ∈ ops' ++ l -> CreateEntities n ∈ ops ++ [o]) as Grow.
  { intros l Hl Hln E. split; [done|]. destruct E as [E _]. split; [by apply pre_grow|]. split; [by apply pre_grow'|].
    intros n [Hin|Hin]%elem_of_app; apply elem_of_app; [left; auto|right; rewrite (Hln n Hin); left]. }
  assert (forall r, handed_ev (o, r) = [] -> (forall i ord, o = RemoveEntity i ord -> forall x, r <> Ret x) ->
    alive (seen ops ++ [(o, r)]) = alive (seen ops) /\ waiting (seen ops ++ [(o, r)]) = waiting (seen ops) /\ handed (seen ops ++ [(o, r)]) = handed (seen ops)) as Hidle.
  { intros r Hr Hn. unfold alive, waiting, handed. rewrite !foldl_app, bind_app. cbn [foldl mbind list_bind]. rewrite Hr, app_nil_r.
    assert (alive_event (foldl alive_event ∅ (seen ops)) (o, r) = foldl alive_event ∅ (seen ops) ∪ list_to_set (handed_ev (o, r)) /\
      waiting_event (foldl waiting_event [] (seen ops)) (o, r) = filter (fun i => i ∉ handed_ev (o, r)) (foldl waiting_event [] (seen ops))) as [-> ->].
    { destruct o; try done. destruct r as [x| | |]; [|done..]. by destruct (Hn id ord eq_refl x). }
    rewrite Hr. split; [cbn; apply (right_id_L ∅ (∪))|]. split; [|done]. apply filter_nothing. }
  assert (forall o' r, answer ops o = answer ops' o' -> r = answer ops o -> alive_event (alive (seen ops)) (o, r) = alive_event (alive (seen ops)) (o', r) ->
    waiting_event (waiting (seen ops)) (o, r) = waiting_event (waiting (seen ops)) (o', r) -> handed_ev (o, r) = handed_ev (o', r) ->
    alive (seen (ops ++ [o])) = alive (seen (ops' ++ [o'])) /\ waiting (seen (ops ++ [o])) = waiting (seen (ops' ++ [o'])) /\
    handed (seen (ops ++ [o])) = handed (seen (ops' ++ [o']))) as Hboth.
  { intros o' r E -> E1 E2 E3. rewrite !seen_snoc, <- E. unfold alive, waiting, handed in *. rewrite !foldl_app, !bind_app. cbn [foldl mbind list_bind].
    rewrite E1, E2, E3. by rewrite Ha, Hw, !list_to_set_app_L, Hh. }
  assert (idle_call o \/ ~ idle_call o) as [Hi|Hi] by (destruct o; (by left) || (by right; intros [])).
  { exists ops'. rewrite after_snoc, (step_em o _ Hi). do 4 (split; [done|]). rewrite <- (app_nil_r ops').
    apply (Grow []); [cbn; lia|by intros n ?%elem_of_nil|]. rewrite app_nil_r, seen_snoc.
    destruct (Hidle (answer ops o)) as (-> & -> & ->); [by destruct o|by intros i ord ->|done]. }
  destruct o; try (by destruct Hi).
  - exists (ops' ++ [CreateEntity]). destruct (create_same _ _ He) as [E1 E2]. destruct (create_bare (after ops')) as [B1 B2].
    rewrite !after_snoc. split; [by apply rules_snoc|]. split; [by rewrite B1|]. split; [by rewrite B2|]. split; [done|]. apply (Grow [CreateEntity]); [cbn; lia|by intros n ?%elem_of_list_singleton|]. by apply (Hboth CreateEntity _ E1 eq_refl).
  - exists (ops' ++ [CreateEntities n]). destruct (creates_same n _ _ He) as [E1 E2]. destruct (creates_bare n (after ops')) as [B1 B2].
    rewrite !after_snoc. split; [by apply rules_snoc|]. split; [by rewrite B1|]. split; [by rewrite B2|]. split; [done|]. apply (Grow [CreateEntities n]); [cbn; lia|by intros n' ->%elem_of_list_singleton|]. by apply (Hboth (CreateEntities n) _ E1 eq_refl).
  - destruct (To id ord eq_refl) as [H1 H2]. clear To.
    assert (rules (ops' ++ [RemoveEntity id []])) as L'.
    { apply rules_snoc. split; [done|]. destruct (reached ops' L) as [HR A]. split; [done|]. split; [by rewrite <- (ag_wait _ _ A), <- Hw|].
      split.
      - intros i j g h t Hij Hi' Hj. pose proof (Forall2_length _ _ _ (R_gr _ _ HR)) as Hl. rewrite Hg in Hl. apply lookup_lt_Some in Hj. cbn in Hl. lia.
      - assert (a_comps (aexec ops' a_init) = ∅) as ->; [|by rewrite map_to_list_empty]. apply map_eq. intros t. rewrite lookup_empty.
        pose proof (R_st _ _ HR t) as S. rewrite Hc, lookup_empty in S. by destruct (a_comps (aexec ops' a_init) !! t). }
    pose proof (remove_em id ord (after ops)) as K.
    assert (answer ops (RemoveEntity id ord) = match (remove_entity id ord (after ops)).1 with Ret _ => Ret OUnit | Panic => Panic | UB => UB | Block => Block end) as Ean
      by (unfold answer; cbn [step]; by rewrite fmapM_fst).
    assert (w_em (after (ops ++ [RemoveEntity id ord])) = w_em (remove_entity id ord (after ops)).2) as Eem by (rewrite after_snoc; cbn [step]; by rewrite fmapM_snd).
    assert (w_em (remove_entity id ord (after ops)).2 = w_em (after ops) -> (forall r, (remove_entity id ord (after ops)).1 <> Ret r) ->
      exists ops' : list (op V), rules ops' /\ w_comps (after ops') = ∅ /\ w_groups (after ops') = [] /\ w_em (after (ops ++ [RemoveEntity id ord])) = w_em (after ops') /\
        (alive (seen (ops ++ [RemoveEntity id ord])) = alive (seen ops') /\ waiting (seen (ops ++ [RemoveEntity id ord])) = waiting (seen ops') /\
        handed (seen (ops ++ [RemoveEntity id ord])) = handed (seen ops')) /\
        pre_same (ops ++ [RemoveEntity id ord]) ops' /\ pre_same ops' (ops ++ [RemoveEntity id ord]) /\ forall n, CreateEntities n ∈ ops' -> CreateEntities n ∈ ops ++ [RemoveEntity id ord]) as Hsame.
    { intros E1 E2. exists ops'. rewrite Eem, E1. do 4 (split; [done|]). rewrite <- (app_nil_r ops').
      apply (Grow []); [cbn; lia|by intros n ?%elem_of_nil|]. rewrite app_nil_r, seen_snoc. destruct (Hidle (answer ops (RemoveEntity id ord))) as (-> & -> & ->); [done| |done].
      intros i ord' _ x. rewrite Ean. destruct (remove_entity id ord (after ops)).1 as [y| | |]; try done. by destruct (E2 y). }
    destruct K as [[E1 E2]|(Hex & E1 & E2)]; [by apply Hsame|].
    assert (exist id (after ops') = Ret true) as Hex' by (unfold exist in *; by rewrite <- He).
    pose proof (remove_bare id _ Hc Hg Hex') as Er. destruct (reached ops' L) as [HR A]. apply rules_snoc in L' as L''. destruct L'' as [_ Lr].
    destruct (step_ok _ _ _ HR Lr) as [O _]. cbn [aout step] in O. rewrite fmapM_fst, Er in O. unfold on_em in O. rewrite <- He in O.
    destruct (em_remove id (w_em (after ops))) as [r e'] eqn:Em. cbn [fst snd] in *. destruct r as [[]| | |].
    + exists (ops' ++ [RemoveEntity id []]). assert (step (RemoveEntity id []) (after ops') = (Ret OUnit, set_em e' (after ops'))) as Es.
      { cbn [step]. unfold fmapM, bind. rewrite Er. unfold on_em. by rewrite <- He, Em. }
      split; [done|]. rewrite Eem, E2, after_snoc, Es. cbn [snd set_em w_comps w_groups w_em]. split; [done|]. split; [done|]. split; [done|].
      apply (Grow [RemoveEntity id []]); [cbn; lia|by intros n ?%elem_of_list_singleton|].
      apply (Hboth (RemoveEntity id []) (Ret OUnit)); try done; [|by rewrite Ean, E1]. rewrite Ean, E1. unfold answer. by rewrite Es.
    + destruct (decide (live (aexec ops' a_init) id)) as [?|Hd]; [discriminate O|].
      pose proof (remove_dead_spec _ _ id [] HR H1 Hd) as Erd. rewrite Er in Erd. unfold on_em in Erd. rewrite <- He, Em in Erd.
      apply Hsame; [|by rewrite E1]. rewrite E2. cut (w_em (set_em e' (after ops')) = w_em (after ops')); [cbn; congruence|].
      rewrite (ag_wait _ _ A) in Hw. rewrite Hw in H2. specialize (Erd H2). by injection Erd as ->.
    + destruct (decide (live (aexec ops' a_init) id)); discriminate O.
    + destruct (decide (live (aexec ops' a_init) id)); discriminate O.
Qed.

Lemma exist_same ops ops' id : w_em (after ops) = w_em (after ops') -> answer ops (Exist id) = answer ops' (Exist id).
Proof. intros E. unfold answer. cbn [step]. rewrite !bind_get, !fmapM_fst. unfold lift, exist. by rewrite E. Qed.

(** ** C08-C10: new ids *)
Theorem C08_any_history ops : tidy ops ->
  exists id, answer ops CreateEntity = Ret (OId id) /\ id <> 0 /\ id ∉ alive (seen ops) /\
    alive (seen (ops ++ [CreateEntity])) = {[id]} ∪ alive (seen ops) /\
    answer (ops ++ [CreateEntity]) (Exist id) = Ret (OBool true) /\
    forall j, 1 <= j -> j <> id ->
      answer (ops ++ [CreateEntity]) (Exist j) = answer ops (Exist j).
Proof.
  intros (ops' & L & _ & _ & He & (Ha & _) & _)%shadow. destruct (create_same _ _ He) as [E1 E2].
  destruct (C08_create_fresh ops' L) as (id & A1 & A2 & A3 & A4 & A5 & A6). exists id.
  assert (answer ops CreateEntity = Ret (OId id)) as Ea by (unfold answer in *; congruence).
  assert (w_em (after (ops ++ [CreateEntity])) = w_em (after (ops' ++ [CreateEntity]))) as Ee by (rewrite !after_snoc; done).
  split; [done|]. split; [done|]. split; [by rewrite Ha|]. split.
  { rewrite seen_snoc, Ea. unfold alive at 1. rewrite foldl_app. cbn [foldl alive_event handed_ev]. fold (alive (seen ops)). cbn. set_solver. }
  split; [by rewrite (exist_same _ _ _ Ee)|]. intros j Hj Hne. rewrite (exist_same _ _ _ Ee), (exist_same _ _ _ He). auto.
Qed.
Theorem C09_any_history ops : tidy ops ->
  answer ops CreateEntity = Ret (OId (match waiting (seen ops) with i :: _ => i | [] => S (size (handed (seen ops))) end)) /\
  NoDup (waiting (seen ops)) /\
  forall id, id ∈ waiting (seen ops) <-> id ∈ handed (seen ops) /\ id ∉ alive (seen ops).
Proof.
  intros (ops' & L & _ & _ & He & (Ha & Hw & Hh) & _)%shadow. destruct (create_same _ _ He) as [E1 _].
  rewrite Ha, Hw, Hh. split; [|by apply C09_waiting_exact]. rewrite <- (C09_create_recycles_lifo ops' L). exact E1.
Qed.
Theorem C10_any_history ops n : tidy ops ->
  let k := S (size (handed (seen ops))) in
  let ops' := ops ++ [CreateEntities n] in
  answer ops (CreateEntities n) = Ret (ORange k (k + n)) /\
  (forall id, k <= id < k + n -> id ∉ handed (seen ops) /\ id ∈ alive (seen ops') /\
     answer ops' (Exist id) = Ret (OBool true)) /\
  (forall id, id ∈ alive (seen ops) -> id ∈ alive (seen ops')) /\
  waiting (seen ops') = waiting (seen ops).
Proof.
  intros (ops' & L & _ & _ & He & (Ha & Hw & Hh) & _)%shadow. destruct (creates_same n _ _ He) as [E1 E2].
  assert (w_em (after (ops ++ [CreateEntities n])) = w_em (after (ops' ++ [CreateEntities n]))) as Ee by (rewrite !after_snoc; done).
  assert (answer ops (CreateEntities n) = answer ops' (CreateEntities n)) as Ea by exact E1.
  assert (alive (seen (ops ++ [CreateEntities n])) = alive (seen (ops' ++ [CreateEntities n]))) as Ha'.
  { rewrite !seen_snoc, Ea. unfold alive in *. rewrite !foldl_app. cbn [foldl]. by rewrite Ha. }
  assert (waiting (seen (ops ++ [CreateEntities n])) = waiting (seen (ops' ++ [CreateEntities n]))) as Hw'.
  { rewrite !seen_snoc, Ea. unfold waiting in *. rewrite !foldl_app. cbn [foldl]. by rewrite Hw. }
  cbv zeta. destruct (C10_create_entities ops' n L) as (B1 & B2 & B3 & B4). rewrite Ea, Ha', Hw', Ha, Hw, Hh. split; [done|]. split; [|done].
  intros id Hid. rewrite (exist_same _ _ _ Ee). auto.
Qed.
(** ** C11: no id is wasted *)
Theorem C11_any_history ops : tidy ops -> (forall n, CreateEntities n ∉ ops) ->
  let m := max_id (handed (seen ops)) in
  (forall k, size (alive (seen (take k ops))) <= m) /\
  (exists k, size (alive (seen (take k ops))) = m).
Proof.
  intros (ops' & L & _ & _ & He & (Ha & Hw & Hh) & P1 & P2 & Hn)%shadow Hc m.
  destruct (C11_no_id_leak ops' L) as [B1 [k Bk]]; [intros n Hin; by apply (Hc n), Hn|]. rewrite <- Hh in *. split.
  - intros j. destruct (P1 j) as [j' ->]. apply B1.
  - destruct (P2 k) as [k' E]. exists k'. by rewrite <- E.
Qed.
(** ** C12-C15: [exist] and removal *)
Theorem C12_any_history ops id : tidy ops -> id ∈ alive (seen ops) -> answer ops (Exist id) = Ret (OBool true).
Proof. intros (ops' & L & _ & _ & He & (Ha & _) & _)%shadow. rewrite Ha, (exist_same _ _ _ He). by apply C12_exist_live. Qed.
Theorem C13_any_history ops id : tidy ops -> id ∈ waiting (seen ops) ->
  answer ops (Exist id) = Ret (OBool (bool_decide (last (waiting (seen ops)) = Some id))).
Proof. intros (ops' & L & _ & _ & He & (_ & Hw & _) & _)%shadow. rewrite Hw, (exist_same _ _ _ He). by apply C13_exist_removed_partial. Qed.
Theorem C14_any_history ops id : tidy ops -> 1 <= id ->
  (id ∈ handed (seen ops) -> exists b, answer ops (Exist id) = Ret (OBool b)) /\
  (id ∉ handed (seen ops) -> answer ops (Exist id) = Panic).
Proof.
  intros (ops' & L & _ & _ & He & (_ & _ & Hh) & _)%shadow H1. rewrite Hh, (exist_same _ _ _ He).
  destruct (C14_exist_total_partial ops' id L H1) as (A & B & _). done.
Qed.
Theorem C15_any_history ops id ord : tidy ops -> 1 <= id -> id ∉ alive (seen ops) -> last (waiting (seen ops)) <> Some id ->
  step (RemoveEntity id ord) (after ops) = (Panic, after ops).
Proof.
  intros (ops' & L & _ & _ & He & (Ha & Hw & Hh) & _)%shadow H1. rewrite Ha, Hw. intros H2 H3.
  pose proof (C15_remove_dead_partial ops' id [] L H1 H2 H3) as E. destruct (reached ops' L) as [HR A].
  rewrite (ag_alive _ _ A) in H2. rewrite (ag_wait _ _ A) in H3.
  cbn [step]. unfold fmapM, bind at 1, remove_entity. rewrite bind_get. unfold exist. rewrite He.
  pose proof (exist_spec _ _ id HR H1) as Ex. unfold exist in Ex. rewrite Ex. unfold a_exist. case_decide as C; [done|]. rewrite bind_lift.
  rewrite bool_decide_false; [by rewrite bind_assert_false|]. intros [?|?]; [|done].
  apply H2. unfold live, allocated. split; [lia|done].
Qed.

(** ** C18: new entities are bare *)

Lemma write_present ops t i v : good (after ops) -> answer ops (WriteComp t i v) = Ret (OBool true) -> is_Some (wvalue (after ops) t i).
Proof.
  intros G. unfold answer. rewrite (write_op_eq _ t) by done. unfold on_store, wvalue. destruct (w_comps (after ops) !! t) as [st|] eqn:E; [|discriminate].
  destruct (gd_st _ G t st E) as [Hty W]. cbn [write_fun]. rewrite Hty, Nat.eqb_refl. destruct (ss_exist (st_set st) i) eqn:Ex; [|discriminate].
  intros _. by apply exist_lookup.
Qed.
Lemma get_mut_present ops t i v : good (after ops) -> answer ops (StoreGetMut t i v) = Ret (OBool true) -> is_Some (wvalue (after ops) t i).
Proof.
  intros G. unfold answer. rewrite (write_op_eq _ t) by done. unfold on_store, wvalue. destruct (w_comps (after ops) !! t) as [st|] eqn:E; [|discriminate].
  destruct (gd_st _ G t st E) as [Hty W]. cbn [write_fun]. rewrite Hty, Nat.eqb_refl, (get_loc_wf _ _ W).
  destruct (ss_get_index (st_set st) i) as [k|] eqn:Hk; [|discriminate]. intros _. apply exist_lookup; [done|]. apply exist_pos. by eexists.
Qed.
Lemma place_present ops t k id : good (after ops) -> (forall t, wvalue (after ops) t 0 = None) -> at_place (answer ops) t k = Some id -> is_Some (wvalue (after ops) t id).
Proof.
  intros G H0 H. unfold at_place in H. rewrite answer_query in H. unfold wvalue. destruct (w_comps (after ops) !! t) as [st|] eqn:E.
  - destruct (place_entities _ t st G H0 E) as (l & El & El'). rewrite El, El' in H. destruct (gd_st _ G t st E) as [_ W].
    apply (wf_pos _ W) in H. apply exist_lookup; [done|]. apply exist_pos. by eexists.
  - unfold run_query in H. cbn [query_open] in H. unfold has_registered in H. rewrite bind_assert_false in H; [done|]. rewrite E. done.
Qed.
(** A component appears only by attaching, to an entity said to exist, or by a
    batch attach. *)
Theorem C02_gains_any_history ops o t id x : loose (ops ++ [o]) ->
  answer ops (ReadComp t id) = Ret (OVal None) -> answer (ops ++ [o]) (ReadComp t id) = Ret (OVal (Some x)) ->
  (o = Attach t id x /\ answer ops (Exist id) = Ret (OBool true)) \/
  (exists lo hi vs, o = BatchAttach lo hi t vs /\ lo <= id < hi /\ vs !! (id - lo) = Some x).
Proof.
  intros L E1 E2. destruct (C02_any_history ops o t id L) as (old & new & E1' & E2' & E). rewrite E1 in E1'. injection E1' as <-.
  rewrite E2 in E2'. injection E2' as <-. pose proof L as [L' _]%loose_snoc. destruct (loose_inv _ L') as (G & H0 & _).
  assert (is_Some (wvalue (after ops) t id) -> False) as Hno. { rewrite answer_read in E1 by done. injection E1 as ->. by intros [? ?]. }
  unfold effect_on in E. destruct o; try discriminate E.
  - revert E. generalize (answer ops (RemoveEntity id0 ord)). intros [r| | |]; [by destruct (decide _)|..]; intros [E|(_ & _ & E)]; discriminate E.
  - destruct (decide _) as [(-> & -> & Hy & _)|]; [|discriminate E]. injection E as ->. left. split; [done|].
    revert Hy. generalize (answer ops (Exist id)). intros [[]| | |]; try discriminate. by destruct b.
  - revert E. generalize (answer ops (Detach t0 id0)). intros [r| | |] E; try discriminate E. by destruct (decide _).
  - right. revert E. generalize (answer ops (BatchAttach lo hi t0 vs)). intros [r| | |] E; try discriminate E. destruct (decide _) as [[-> ?]|]; [|discriminate E]. by exists lo, hi, vs.
  - destruct (answer ops (WriteComp t0 id0 v)) as [[]| | |] eqn:Ea; try discriminate E. destruct b; [|discriminate E].
    destruct (decide _) as [[-> ->]|]; [|discriminate E]. destruct Hno. by eapply write_present.
  - destruct (answer ops (StoreGetMut t0 id0 v)) as [[]| | |] eqn:Ea; try discriminate E. destruct b; [|discriminate E].
    destruct (decide _) as [[-> ->]|]; [|discriminate E]. destruct Hno. by eapply get_mut_present.
  - match goal with H : match ?e with _ => _ end |- _ => destruct e as [[]| | |] eqn:Ea; try discriminate H end. destruct b; [|discriminate E].
    destruct (decide _) as [[-> Hp]|]; [|discriminate E]. destruct Hno. by eapply place_present.
  - revert E. generalize (answer ops (QueryMut q f)). intros [[]| | |] E; try discriminate E. by destruct (decide _).
Qed.
Lemma gains_inv ops o t id : loose (ops ++ [o]) -> wvalue (after ops) t id = None -> wvalue (after (ops ++ [o])) t id <> None ->
  (exists v, o = Attach t id v /\ answer ops (Exist id) = Ret (OBool true)) \/ (exists lo hi vs, o = BatchAttach lo hi t vs /\ lo <= id < hi).
Proof.
  intros L E1 E2. pose proof (loose_inv _ L) as (G' & _). pose proof L as [L' _]%loose_snoc. destruct (loose_inv _ L') as (G & _).
  destruct (wvalue (after (ops ++ [o])) t id) as [x|] eqn:E; [|done].
  destruct (C02_gains_any_history ops o t id x L) as [[-> ?]|(lo & hi & vs & -> & ? & _)]; [by rewrite answer_read, E1|by rewrite answer_read, E|left|right]; eauto 10.
Qed.
Lemma handed_mono h ev id : id ∈ handed (V := V) h -> id ∈ handed (h ++ [ev]).
Proof. unfold handed. rewrite bind_app, list_to_set_app_L. set_solver. Qed.
Lemma unhanded_bare ops : loose ops -> tidy ops -> batches_handed ops -> forall t id, 1 <= id -> id ∉ handed (seen ops) -> wvalue (after ops) t id = None.
Proof.
  induction ops as [|o ops IH] using rev_ind; intros L T B t id H1 Hn; [done|]. pose proof L as [L' _]%loose_snoc. pose proof T as [T' _]%tidy_snoc.
  assert (batches_handed ops) as B'. { intros pre lo hi u vs post i ->. apply (B pre lo hi u vs (post ++ [o])). by rewrite <- app_assoc. }
  assert (id ∉ handed (seen ops)) as Hn'. { intros ?. apply Hn. rewrite seen_snoc. by apply handed_mono. }
  specialize (IH L' T' B' t id H1 Hn'). destruct (wvalue (after (ops ++ [o])) t id) eqn:E; [|done]. exfalso.
  destruct (gains_inv ops o t id L IH) as [(x & -> & Hx)|(lo & hi & vs & -> & Hin)]; [congruence|..].
  - destruct (C14_any_history ops id T' H1) as [_ K]. rewrite K in Hx by done. discriminate Hx.
  - apply Hn'. by apply (B ops lo hi t vs []).
Qed.
Theorem C18_new_entities_any_history ops n lo hi id t : loose ops -> tidy ops -> batches_handed ops ->
  answer ops (CreateEntities n) = Ret (ORange lo hi) -> lo <= id < hi ->
  answer (ops ++ [CreateEntities n]) (ReadComp t id) = Ret (OVal None).
Proof.
  intros L T B E Hid. destruct (C10_any_history ops n T) as (E' & Hf & _). rewrite E in E'. injection E' as -> ->. destruct (Hf id Hid) as [Hn _].
  assert (wvalue (after ops) t id = None) as Hv by (apply unhanded_bare; try done; lia).
  destruct (C02_any_history ops (CreateEntities n) t id) as (old & new & E1 & -> & E3); [by apply loose_snoc|].
  destruct (loose_inv _ L) as (G & _). rewrite answer_read, Hv in E1 by done. injection E1 as <-. unfold effect_on in E3. by rewrite E3.
Qed.
Lemma alive_handed ops id : tidy ops -> id ∈ alive (seen ops) -> id ∈ handed (seen ops).
Proof.
  intros (ops' & L & _ & _ & He & (Ha & Hw & Hh) & _)%shadow. rewrite Ha, Hh. destruct (reached ops' L) as [_ A].
  rewrite (ag_alive _ _ A), (ag_handed _ _ A). by intros [? _].
Qed.
Lemma dead_bare ops : loose ops -> tidy ops -> attach_to_live ops -> forall t id, id ∉ alive (seen ops) -> wvalue (after ops) t id = None.
Proof.
  induction ops as [|o ops IH] using rev_ind; intros L T B t id Hd; [done|]. pose proof L as [L' _]%loose_snoc. pose proof T as [T' _]%tidy_snoc.
  apply attach_to_live_snoc in B as [B' Bo]. specialize (IH L' T' B'). rewrite seen_snoc, alive_snoc in Hd.
  destruct (decide (id ∈ alive (seen ops))) as [Hl|Hl].
  - assert (exists ord r, o = RemoveEntity id ord /\ answer ops o = Ret r) as (ord & r & -> & Er).
    { destruct o; try (destruct Hd; cbn [alive_event]; apply elem_of_union; by left). destruct (answer ops (RemoveEntity id0 ord)) as [r| | |] eqn:Er.
      1:{ cbn [alive_event] in Hd. destruct (decide (id = id0)) as [->|Hne]; [by exists ord, r|]. destruct Hd. apply elem_of_difference. split; [done|]. by rewrite elem_of_singleton. }
      all: destruct Hd; cbn [alive_event]; apply elem_of_union; by left. }
    destruct (C02_any_history ops _ t id L) as (old & new & E1 & E2 & E3). destruct (loose_inv _ L) as (G & _). rewrite answer_read in E2 by done. injection E2 as ->.
    unfold effect_on in E3. rewrite Er, decide_True in E3 by done. done.
  - specialize (IH t id Hl). destruct (wvalue (after (ops ++ [o])) t id) eqn:E; [|done]. exfalso.
    destruct (gains_inv ops o t id L IH) as [(x & -> & Hx)|(lo & hi & vs & -> & Hin)]; [congruence|by apply Hl|by apply Hl, Bo].
Qed.
Theorem C18_new_entity_any_history ops id t : loose ops -> tidy ops -> attach_to_live ops ->
  answer ops CreateEntity = Ret (OId id) -> answer (ops ++ [CreateEntity]) (ReadComp t id) = Ret (OVal None).
Proof.
  intros L T B E. destruct (C08_any_history ops T) as (i & E' & _ & Hd & _). rewrite E in E'. injection E' as <-.
  pose proof (dead_bare ops L T B t id Hd) as Hv.
  destruct (C02_any_history ops CreateEntity t id) as (old & new & E1 & -> & E3); [by apply loose_snoc|].
  destruct (loose_inv _ L) as (G & _). rewrite answer_read, Hv in E1 by done. injection E1 as <-. unfold effect_on in E3. by rewrite E3.
Qed.
End tidy.

(** ** Concrete cases *)
Definition tidyb {V} (ops : list (op V)) : bool :=
  forallb (fun k => match ops !! k with
    | Some (RemoveEntity i _) => (1 <=? i) && negb (bool_decide (last (waiting (seen (take k ops))) = Some i))
    | _ => true end) (seq 0 (length ops)).
Lemma tidyb_ok {V} (ops : list (op V)) : tidyb ops = true -> tidy ops.
Proof.
  intros H pre i ord post ->. pose proof (proj1 (forallb_forall _ _) H (length pre)) as K. cbv beta in K.
  rewrite list_lookup_middle, take_app in K by done. feed pose proof K as K'; [apply elem_of_list_In, elem_of_seq; rewrite app_length; cbn; lia|]. clear K. rename K' into K.
  apply andb_true_iff in K as [K1%Nat.leb_le K2%negb_true_iff]. split; [done|]. by apply bool_decide_eq_false in K2.
Qed.
Definition handedb {V} (ops : list (op V)) : bool :=
  forallb (fun k => match ops !! k with
    | Some (BatchAttach lo hi _ _) => forallb (fun id => bool_decide (id ∈ handed (seen (take k ops)))) (seq lo (hi - lo))
    | _ => true end) (seq 0 (length ops)).
Lemma handedb_ok {V} (ops : list (op V)) : handedb ops = true -> batches_handed ops.
Proof.
  intros H pre lo hi t vs post id -> Hid. pose proof (proj1 (forallb_forall _ _) H (length pre)) as K. cbv beta in K.
  rewrite list_lookup_middle, take_app in K by done. feed pose proof K as K'; [apply elem_of_list_In, elem_of_seq; rewrite app_length; cbn; lia|]. clear K. rename K' into K.
  apply (bool_decide_eq_true_1 (id ∈ handed (seen pre))). apply (proj1 (forallb_forall _ _) K). apply elem_of_list_In, elem_of_seq. lia.
Qed.
(** A history breaking the rules of use about groups: made of types not
    registered, out of order, not told of a batch attach; a removal and an
    attach that panic for it; but tidy, and attaching to live entities. *)
Definition messy : list (op nat) :=
  [Register 1; Register 2; CreateEntities 6; MakeGroup KFull 1 2; BatchAttach 1 3 1 [11; 12]; BatchAttach 2 4 2 [22; 23];
   RemoveEntity 4 [1; 2]; RemoveEntity 2 [1; 2]; RemoveEntity 5 [1; 2]; CreateEntity; MakeGroup KNon 2 5; RemoveEntity 1 [1; 2]; RemoveEntity 9 [1; 2];
   Detach 1 1; RemoveEntity 2 [1; 2]; Attach 2 6 26; Attach 1 6 16].
Example messy_case : tidy messy /\ loose messy /\ batches_handed messy /\ attach_to_live messy /\ ~ rules messy /\
  (snd <$> seen messy) = [Ret OUnit; Ret OUnit; Ret (ORange 1 7); Ret OUnit; Ret OUnit; Ret OUnit; Ret OUnit; Ret OUnit;
    Ret OUnit; Ret (OId 5); Panic; Panic; Panic; Ret (OVal (Some 11)); Panic; Panic; Ret OUnit].
Proof.
  split; [apply tidyb_ok; vm_compute; reflexivity|]. split; [apply looseb_ok; vm_compute; reflexivity|].
  split; [apply handedb_ok; vm_compute; reflexivity|]. split; [apply attach_liveb_ok; vm_compute; reflexivity|]. split; [|vm_compute; reflexivity].
  intros (_ & _ & _ & _ & _ & _ & _ & _ & _ & _ & L & _). destruct L as [E|(_ & E & _)]; [vm_compute in E; discriminate E|]. revert E. by_compute.
Qed.
(** C08-C10, C12-C15, C18 after it: ids 1, 3, 5, 6 are alive, 2 and 4 wait. *)
Example C13_any_case : waiting (seen messy) = [2; 4] /\ 3 ∈ alive (seen messy) /\ 2 ∉ alive (seen messy) /\ last (waiting (seen messy)) <> Some 2 /\
  7 ∉ handed (seen messy) /\ answer messy CreateEntity = Ret (OId 2) /\ answer messy (CreateEntities 2) = Ret (ORange 7 9).
Proof. split_and!; try by_compute; vm_compute; reflexivity. Qed.
(** C11: one by one, with panicking removals *)
Example C11_any_case : let ops : list (op nat) :=
    [CreateEntity; Register 1; MakeGroup KFull 1 2; CreateEntity; Attach 1 1 5; RemoveEntity 1 [1]; CreateEntity] in
  tidy ops /\ ~ rules ops /\ (forall n, CreateEntities n ∉ ops) /\ max_id (handed (seen ops)) = 3.
Proof.
  split; [apply tidyb_ok; vm_compute; reflexivity|]. split; [|split; [|by vm_compute]].
  - intros (_ & _ & L & _). destruct L as [E|(_ & E & _)]; [vm_compute in E; discriminate E|]. revert E. by_compute.
  - intros n. rewrite !elem_of_cons, elem_of_nil. naive_solver.
Qed.

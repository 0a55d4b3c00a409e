(** C55: ids in the life of a world. *)
From stdpp Require Import prelude list gmap.
From Verif Require Import Base Api ModelSparse ModelEntity ModelGroup ModelWorld ModelQuery ModelStep ModelConc SpecConc ModelLife
  Spec History Rules ProofSparse ProofEntity ProofGroup ProofWorld ProofOps ProofRemove ProofMain ProofHistory ProofHistory2 ProofWf ProofConc4 ProofConc5
  ProofConc8 ProofConc9 ProofConc10 ProofConc11 ProofEm SpecLoose ProofLoose ProofLoose2 PropEntity PropComp PropLoose PropLooseEnt SpecLife PropLife.

Section ids.
Context {V : Type}.
Implicit Types (s : life V) (acts : list (action V)) (w : world V) (ops : list (op V)).

Lemma deeds_snoc acts a s0 s1 s' : lived acts s0 = Some s1 -> act1 a s1 = Some s' -> deeds (acts ++ [a]) s0 = deeds acts s0 ++ deed s1 a.
Proof.
  revert s0. induction acts as [|b acts IH]; intros s0 H E; cbn [lived deeds app] in *.
  - injection H as ->. rewrite E. by rewrite app_nil_r.
  - destruct (act1 b s0) as [s2|]; [|done]. rewrite (IH s2 H E). by rewrite app_assoc.
Qed.
Lemma neat_snoc acts a : neat (V := V) (acts ++ [a]) ->
  neat acts /\ forall s id, lived acts born = Some s -> removes s a = Some id -> 1 <= id /\ last (waiting (seen (deeds acts born))) <> Some id.
Proof.
  intros H. split; [|intros s id Hs; by apply (H acts a [] s id)]. intros pre b post s id ->. apply (H pre b (post ++ [a])). by rewrite <- app_assoc.
Qed.
(** histories of calls concerning ids only *)
Definition bare ops : Prop := w_comps (after ops) = ∅ /\ w_groups (after ops) = [].
Lemma bare_remove_rules ops id : rules ops -> bare ops -> 1 <= id -> last (waiting (seen ops)) <> Some id -> rules (ops ++ [RemoveEntity id []]).
Proof.
  intros L [Hc Hg] H1 Hw. apply rules_snoc. split; [done|]. destruct (reached ops L) as [HR A]. split; [done|]. split; [by rewrite <- (ag_wait _ _ A)|].
  split.
  - intros i j g h t Hij Hi' Hj. pose proof (Forall2_length _ _ _ (R_gr _ _ HR)) as Hl. rewrite Hg in Hl. apply lookup_lt_Some in Hj. cbn in Hl. lia.
  - assert (a_comps (aexec ops a_init) = ∅) as ->; [|by rewrite map_to_list_empty]. apply map_eq. intros t. rewrite lookup_empty.
    pose proof (R_st _ _ HR t) as S. rewrite Hc, lookup_empty in S. by destruct (a_comps (aexec ops a_init) !! t).
Qed.
Lemma bare_remove_step ops id : bare ops -> bare (ops ++ [RemoveEntity id []]) /\
  w_em (after (ops ++ [RemoveEntity id []])) = (em_remove id (w_em (after ops))).2.
Proof.
  intros [Hc Hg]. unfold bare. rewrite after_snoc. cbn [step]. rewrite fmapM_snd.
  assert (exist id (after ops) = Ret true \/ exist id (after ops) <> Ret true) as [He|He] by (destruct (exist id (after ops)) as [[]| | |]; auto).
  - rewrite (remove_bare id _ Hc Hg He). unfold on_em. destruct (em_remove id _). done.
  - rewrite (remove_refused id [] _ He). split; [done|]. unfold exist, em_has in He. unfold em_remove. rewrite bind_get.
    destruct (flags (w_em (after ops)) !! id) as [[k|k]|]; try done.
Qed.
Definition idinv s acts : Prop := rules (deeds acts born) /\ bare (deeds acts born) /\ w_em (lf_world s) = w_em (after (deeds acts born)).
Lemma label_em (lab : label V) w w' : moves lab w w' -> match lab with BNew | BAlloc _ | BFree _ => True | _ => w_em w' = w_em w end.
Proof.
  unfold moves. destruct lab as [| |n|id0|t0 id0 v|t0 lo hi vs|t0 id0|t0 id0|j id0|j id0|j id0| |o]; try done; cbn [effect].
  - by intros ->.
  - intros ->. apply keeps_storage.
  - intros ->. apply keeps_storage.
  - intros ->. apply keeps_storage.
  - intros ->. apply keeps_dyn.
  - intros ->. apply ProofEm.keeps_group.
  - intros ->. apply ProofEm.keeps_group.
  - intros ->. apply ProofEm.keeps_group.
  - intros (H & _). done.
  - intros ((H & _) & _). done.
Qed.
Definition ids_like ops w : Prop := rules ops /\ bare ops /\ w_em w = w_em (after ops).
Lemma act_ids ops s1 a s : (exists w0, cinv w0 nolt False (conf_of s1)) -> act1 a s1 = Some s -> ids_like ops (lf_world s1) ->
  (forall id, removes s1 a = Some id -> 1 <= id /\ last (waiting (seen ops)) <> Some id) -> ids_like (ops ++ deed s1 a) (lf_world s).
Proof.
  intros [w0 HI] E (L & B & He) Na. unfold ids_like.
  assert (forall w, w_em w = w_em (after ops) -> forall o, o = CreateEntity \/ (exists n, o = CreateEntities n) ->
    rules (ops ++ [o]) /\ bare (ops ++ [o]) /\ w_em (step o w).2 = w_em (after (ops ++ [o]))) as Hcr.
  { intros w Hw o [->|[n ->]]; (split; [by apply rules_snoc|]); unfold bare; rewrite after_snoc.
    - destruct (create_bare (after ops)) as [-> ->]. split; [done|]. by apply create_same.
    - destruct (creates_bare n (after ops)) as [-> ->]. split; [done|]. by apply creates_same. }
  destruct a as [cl|i|o]; cbn [act1 deed removes] in *.
  + injection E as <-. rewrite app_nil_r. done.
  + destruct (cstep i (conf_of s1)) as [c'|] eqn:Ec; [|done]. injection E as <-. cbn [lf_world].
    destruct (did i (conf_of s1)) as [lab|] eqn:Ed.
    2: { rewrite app_nil_r. rewrite (cstep_quiet i _ c' Ed Ec). done. }
    destruct (cstep_piece _ _ _ i _ c' lab HI Ed Ec) as (th & _ & Hm & _). pose proof (label_em _ _ _ Hm) as K. cbn [cf_world conf_of] in *.
    destruct lab as [| |n|id0|t0 id0 v|t0 lo hi vs|t0 id0|t0 id0|j id0|j id0|j id0| |o]; rewrite ?app_nil_r; try (rewrite K; done).
    * destruct (Hcr (lf_world s1) He CreateEntity) as (R1 & R2 & R3); [by left|]. split; [done|]. split; [done|]. rewrite <- R3.
      cbn [moves effect] in Hm. rewrite Hm. cbn [step]. rewrite fmapM_snd. unfold create_entity, bind, get, lift.
      destruct (on_em em_allocate (lf_world s1)) as [[x| | |] w1]; try done. cbn [snd]. by destruct (exist x w1) as [[]| | |].
    * destruct (Hcr (lf_world s1) He (CreateEntities n)) as (R1 & R2 & R3); [right; by eexists|]. split; [done|]. split; [done|]. rewrite <- R3.
      cbn [moves effect] in Hm. rewrite Hm. cbn [step]. by rewrite fmapM_snd.
    * destruct (Na id0 eq_refl) as [Hid Hw]. destruct (bare_remove_step ops id0 B) as [B' E']. split; [by apply bare_remove_rules|]. split; [done|].
      rewrite E', <- He. cbn [moves effect] in Hm. rewrite Hm. unfold on_em. by destruct (em_remove id0 (w_em (lf_world s1))).
  + apply act_do in E as [-> _]. cbn [lf_world].
    assert (idle_call o \/ ~ idle_call o) as [Hi|Hi] by (destruct o; (by left) || (by right; intros [])).
    { rewrite (step_em o _ Hi). by destruct o; rewrite ?app_nil_r. }
    destruct o; try (by destruct Hi); rewrite ?app_nil_r.
    * apply Hcr; [done|by left].
    * apply Hcr; [done|right; by eexists].
    * destruct (Na id eq_refl) as [Hid Hw]. pose proof (bare_remove_rules ops id L B Hid Hw) as L'. destruct (bare_remove_step ops id B) as [B' E'].
      unfold tells. cbn [step]. rewrite fmapM_fst, fmapM_snd. destruct (remove_em id ord (lf_world s1)) as [[E1 E2]|(Hex & E1 & E2)].
      -- rewrite E1. destruct (remove_entity id ord (lf_world s1)).1 as [y| | |]; [by destruct (E2 y)|..]; by rewrite app_nil_r.
      -- rewrite E1, E2. destruct (em_remove id (w_em (lf_world s1))) as [r e'] eqn:Em. cbn [fst snd] in *. rewrite He in Em. rewrite Em in E'. cbn [snd] in E'.
         destruct r as [y| | |]; [by rewrite E'|..]; rewrite app_nil_r; (split; [done|]; split; [done|]).
         all: assert (exist id (after ops) = Ret true) as Hex' by (unfold exist in *; by rewrite <- He).
         all: destruct B as [Hc Hg]; pose proof (remove_bare id _ Hc Hg Hex') as Er; unfold on_em in Er; rewrite Em in Er; cbn [fst snd] in Er.
         all: apply rules_snoc in L' as [_ Lr]; destruct (reached ops L) as [HR A]; destruct (step_ok _ _ _ HR Lr) as [O _]; cbn [aout step] in O; rewrite fmapM_fst, Er in O; cbn [fst] in O.
         all: destruct (decide (live (aexec ops a_init) id)) as [?|Hd]; try discriminate O.
         pose proof (remove_dead_spec _ _ id [] HR Hid Hd) as Erd. rewrite Er in Erd. rewrite (ag_wait _ _ A) in Hw. specialize (Erd Hw).
         injection Erd as Erd. rewrite <- Erd. done.
Qed.
Lemma life_ids acts s : neat acts -> lived acts born = Some s -> idinv s acts.
Proof.
  revert s. induction acts as [|a acts IH] using rev_ind; intros s N H.
  - injection H as <-. done.
  - apply neat_snoc in N as [N Na]. apply lived_snoc in H as (s1 & H1 & E). specialize (IH s1 N H1). specialize (fun id => Na s1 id H1). unfold idinv in *.
    rewrite (deeds_snoc acts a born s1 s H1 E). apply act_ids; [|done|done|done].
    destruct (C54_phases acts s1 H1) as (acts0 & acts1 & s0 & _ & _ & _ & _ & _ & Hr).
    exists (lf_world s0). apply (reach_any _ (entered acts1)). by eexists.
Qed.
(** At every moment of the life of a world, ids are as after a history of
    single calls: the creations and removals that took effect until then, in
    that order.  Every call asking for ids or about ids answers as after that
    history, which keeps to the rules of use: so C08-C15 hold throughout the
    life of a world, across threads and exclusive calls. *)
Theorem C55_ids acts s : neat acts -> lived acts born = Some s ->
  rules (deeds acts born) /\
  forall o, (o = CreateEntity \/ (exists n, o = CreateEntities n) \/ exists id, o = Exist id) -> tells (lf_world s) o = answer (deeds acts born) o.
Proof.
  intros N H. destruct (life_ids acts s N H) as (L & _ & He). split; [done|]. intros o [->|[[n ->]|[id ->]]]; unfold tells, answer.
  - by apply create_same.
  - by apply creates_same.
  - cbn [step]. rewrite !bind_get, !fmapM_fst. unfold lift, exist. by rewrite He.
Qed.
(** In particular: an entity alive is said to exist; creating an entity
    returns, with an id that no entity alive has. *)
Theorem C55_new_ids acts s : neat acts -> lived acts born = Some s ->
  (forall id, id ∈ alive (seen (deeds acts born)) -> tells (lf_world s) (Exist id) = Ret (OBool true)) /\
  exists id, tells (lf_world s) CreateEntity = Ret (OId id) /\ id <> 0 /\ id ∉ alive (seen (deeds acts born)).
Proof.
  intros N H. destruct (C55_ids acts s N H) as [L K]. split.
  - intros id Hid. rewrite K by (right; right; by eexists). by apply C12_exist_live.
  - destruct (C08_create_fresh _ L) as (id & H1 & H2 & H3 & _). exists id. rewrite K by (by left). done.
Qed.
End ids.

(** ** Concrete case *)
Definition neatb (acts : list (action nat)) : bool :=
  forallb (fun n => match acts !! n, lived (take n acts) born with
    | Some a, Some s => match removes s a with
        | Some id => (1 <=? id) && negb (bool_decide (last (waiting (seen (deeds (take n acts) born))) = Some id))
        | None => true end
    | _, _ => true end) (seq 0 (length acts)).
Lemma neatb_ok acts : neatb acts = true -> neat acts.
Proof.
  intros H pre a post s id -> Hl Hr. pose proof (proj1 (forallb_forall _ _) H (length pre)) as K. cbv beta in K.
  rewrite list_lookup_middle, take_app, Hl, Hr in K by done. assert (1 <= id /\ last (waiting (seen (deeds pre born))) <> Some id) as X; [|exact X].
  assert ((1 <=? id) && negb (bool_decide (last (waiting (seen (deeds pre born))) = Some id)) = true) as Y.
  { apply K. apply in_seq. rewrite app_length. cbn [length]. lia. }
  apply andb_true_iff in Y as [Y1 Y2]. split; [by apply Nat.leb_le|]. by apply negb_true_iff, bool_decide_eq_false in Y2.
Qed.
Example C55_ids_case : neat a_life /\ lived a_life born = Some (lf_at a_life) /\
  deeds a_life born = [CreateEntity; CreateEntity; RemoveEntity 2 []] /\
  tells (lf_world (lf_at a_life)) (Exist 1) = Ret (OBool true) /\ tells (lf_world (lf_at a_life)) CreateEntity = Ret (OId 2).
Proof.
  split; [apply neatb_ok; vm_compute; reflexivity|]. split; [apply lf_at_ok; vm_compute; reflexivity|].
  split; [vm_compute; reflexivity|]. split; vm_compute; reflexivity.
Qed.

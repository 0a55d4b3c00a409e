(** C24 without the restriction that no group has left out an entity
    (C32): exactly what the iteration visits and exactly what [from_id]
    answers; and, for every history and every query whatsoever, [next] is
    [next_with_id] without the id. *)
From stdpp Require Import prelude list gmap.
From Verif Require Import Base Api ModelSparse ModelEntity ModelGroup ModelWorld ModelQuery ModelStep
  Spec History Rules Samples ProofSparse ProofEntity ProofGroup ProofWorld ProofOps ProofOps2 ProofRemove ProofRemove2
  ProofQuery ProofQuery2 ProofQuery3 ProofQueryMut ProofMain ProofHistory ProofQuery4 ProofHistory2 Checks PropEntity PropComp PropQuery.

Section exact.
Context {V : Type}.
Implicit Types (ops : list (op V)) (t id : nat) (q : query) (h : history V).

(** ** Specification *)

(** What [from_id(id)] of the iterator of [q] answers when [val] are the
    current component values and [h] is what happened before the query was
    opened.  It is the meaning of the query ([q_sem], History.v) but for one
    thing: a non-owning group answers [None] for the entities it has left out
    (C32).  Owning groups answer for these, too. *)
Fixpoint finds h (val : nat -> nat -> option V) q id : option (vtree V) :=
  match q with
  | QRef _ t => VLeaf <$> val t id
  | Q2 a b =>
      match finds h val a id, finds h val b id with
      | Some x, Some y => Some (V2 x y)
      | _, _ => None
      end
  | Q3 a b c =>
      match finds h val a id, finds h val b id, finds h val c id with
      | Some x, Some y, Some z => Some (V3 x y z)
      | _, _, _ => None
      end
  | Q4 a b c d =>
      match finds h val a id, finds h val b id, finds h val c id, finds h val d id with
      | Some x, Some y, Some z, Some u => Some (V4 x y z u)
      | _, _, _, _ => None
      end
  | Q5 a b c d e =>
      match finds h val a id, finds h val b id, finds h val c id, finds h val d id, finds h val e id with
      | Some x, Some y, Some z, Some u, Some v => Some (V5 x y z u v)
      | _, _, _, _, _ => None
      end
  | QWithoutL a b => match finds h val a id with None => finds h val b id | Some _ => None end
  | QWithoutR a b => match finds h val b id with None => finds h val a id | Some _ => None end
  | QGroup KNon _ _ a b => if left_out h KNon a b id then None else both_vals val a b id
  | QGroup _ _ _ a b => both_vals val a b id
  end.

(** The part of the query that drives the iteration: the first of a tuple, the
    positive one of [Without]. *)
Fixpoint driver q : query :=
  match q with
  | QRef _ _ | QGroup _ _ _ _ _ => q
  | Q2 a _ | Q3 a _ _ | Q4 a _ _ _ | Q5 a _ _ _ _ => driver a
  | QWithoutL _ b => driver b
  | QWithoutR a _ => driver a
  end.
(** The iteration of [q] skips the entity: the group that drives it has left
    the entity out. *)
Definition skips h q id : bool :=
  match driver q with
  | QGroup k _ _ a b => left_out h k a b id
  | _ => false
  end.

(** The answers to a sequence of calls, as [q_calls] of History.v, for an
    iterator whose [from_id] is [sem]. *)
Fixpoint calls_by (sized : bool) (sem : (nat -> nat -> option V) -> nat -> option (vtree V))
    (val : nat -> nat -> option V) (rem : list nat) (cs : list (qcall V)) : list (qans V) :=
  match cs with
  | [] => []
  | CNext :: cs' => AItem (head rem ≫= sem val) :: calls_by sized sem val (tail rem) cs'
  | CNextId :: cs' =>
      AIdItem (head rem ≫= (fun id => (fun v => (id, v)) <$> sem val id))
      :: calls_by sized sem val (tail rem) cs'
  | CFromId id :: cs' => AItem (sem val id) :: calls_by sized sem val rem cs'
  | CHint :: cs' => AHint (if sized then Some (length rem) else None) :: calls_by sized sem val rem cs'
  | CWrite g :: cs' => AWrote :: calls_by sized sem (fun t id => g t id <$> val t id) rem cs'
  end.

(** ** Proofs *)

Definition g_left h (aw : aworld V) (g : gkind * nat * nat) : Prop :=
  exists ag, find_agroup aw g.1.1 g.1.2 g.2 = Some ag /\
    forall id, id ∈ ag_mem ag <-> has aw g.1.2 id /\ has aw g.2 id /\ left_out h g.1.1 g.1.2 g.2 id = false.

Lemma hist_left h aw q : agree h aw -> agree2 h aw -> q_known h q -> Forall (g_left h aw) (q_groups q).
Proof.
  intros A A2 [_ K]. apply Forall_forall. intros [[k a] b] Hg. apply K in Hg.
  rewrite (ag_grp _ _ A) in Hg. unfold g_left. cbn [fst snd]. unfold find_agroup.
  assert (existsb (ag_same k a b) (a_groups aw) = true) as Ex by (by apply same_key).
  destruct (List.find (ag_same k a b) (a_groups aw)) as [g|] eqn:Ef.
  2:{ exfalso. apply existsb_exists in Ex as (g & Hin & E). pose proof (List.find_none _ _ Ef g Hin). congruence. }
  exists g. split; [done|]. apply List.find_some in Ef as [Hin E]. apply ag_same_inv in E as (<- & <- & <-).
  apply elem_of_list_In in Hin. intros id. by rewrite (ag_left _ _ A2).
Qed.
Lemma left_rewr h g aw l : Forall (g_left h aw) l -> Forall (g_left h (rewr g aw)) l.
Proof.
  intros F. eapply Forall_impl; [exact F|]. intros [[k a] b] (ag & E & Hm). exists ag. split; [done|]. intros id. rewrite Hm.
  unfold has. rewrite !rewr_comp. by rewrite !fmap_is_Some.
Qed.

Lemma finds_get h aw q val id : Forall (g_left h aw) (q_groups q) -> (forall t id, val t id = comp aw t id) ->
  q_get aw q id = finds h val q id.
Proof.
  intros C Hv. induction q; cbn [q_groups] in C; rewrite ?Forall_app in C; destruct_and?; cbn [q_get finds].
  - by rewrite Hv.
  - rewrite IHq1, IHq2 by done. done.
  - rewrite IHq1, IHq2, IHq3 by done. done.
  - rewrite IHq1, IHq2, IHq3, IHq4 by done. done.
  - rewrite IHq1, IHq2, IHq3, IHq4, IHq5 by done. done.
  - rewrite IHq1, IHq2 by done. done.
  - rewrite IHq1, IHq2 by done. done.
  - apply Forall_singleton in C as (g & Hg & Hm). cbn [fst snd] in *.
    assert (pair_get aw a b id = both_vals val a b id) as E by (unfold pair_get, both_vals; by rewrite !Hv).
    destruct k; [done|done|]. rewrite Hg, <- E. unfold pair_get. unfold has in Hm. specialize (Hm id).
    case_decide as D.
    + apply Hm in D as (_ & _ & ->). done.
    + destruct (left_out h KNon a b id); [done|].
      destruct (comp aw a id) as [x|] eqn:Ea; [|done]. destruct (comp aw b id) as [y|] eqn:Eb; [|done].
      destruct D. apply Hm. eauto.
Qed.
Ltac solve_some := split; intros; destruct_and?;
  repeat match goal with H : is_Some None |- _ => destruct H as [? ?]; discriminate end;
  try discriminate; repeat split; eauto.
Lemma visits_iff h aw q val id : Forall (g_left h aw) (q_groups q) -> (forall t id, val t id = comp aw t id) ->
  q_visits aw q id = true <-> is_Some (finds h val q id) /\ skips h q id = false.
Proof.
  intros C Hv. unfold skips.
  assert (forall q', Forall (g_left h aw) (q_groups q') -> q_get aw q' id = finds h val q' id) as G
    by (intros; by apply finds_get).
  induction q; cbn [q_groups] in C; rewrite ?Forall_app in C; destruct_and?; cbn [q_visits finds driver];
    rewrite ?andb_bd, ?G by done.
  - rewrite bool_decide_eq_true. unfold has. rewrite fmap_is_Some, Hv. tauto.
  - rewrite IHq1 by done. destruct (finds h val q1 id), (finds h val q2 id); solve_some.
  - rewrite IHq1 by done. destruct (finds h val q1 id), (finds h val q2 id), (finds h val q3 id); solve_some.
  - rewrite IHq1 by done. destruct (finds h val q1 id), (finds h val q2 id), (finds h val q3 id), (finds h val q4 id); solve_some.
  - rewrite IHq1 by done. destruct (finds h val q1 id), (finds h val q2 id), (finds h val q3 id), (finds h val q4 id), (finds h val q5 id); solve_some.
  - rewrite IHq2 by done. destruct (finds h val q1 id); solve_some.
  - rewrite IHq1 by done. destruct (finds h val q2 id); solve_some.
  - apply Forall_singleton in C as (g & Hg & Hm). cbn [fst snd] in *. rewrite Hg, bool_decide_eq_true, Hm.
    assert (has aw a id /\ has aw b id <-> is_Some (both_vals val a b id)) as E.
    { unfold has, both_vals. rewrite !Hv. destruct (comp aw a id), (comp aw b id); solve_some. }
    destruct k; [tauto|tauto|]. destruct (left_out h KNon a b id) eqn:El; [|tauto].
    split; [intros (_ & _ & ?); done|intros [? ?]; done].
Qed.
Lemma calls_by_spec h sz q cs : forall aw val rem, Forall (g_left h aw) (q_groups q) ->
  (forall t id, val t id = comp aw t id) ->
  aw_calls sz q aw rem cs = calls_by sz (fun val => finds h val q) val rem cs.
Proof.
  assert (forall aw val (rem : list nat), Forall (g_left h aw) (q_groups q) -> (forall t id, val t id = comp aw t id) ->
    (head rem ≫= q_get aw q) = (head rem ≫= finds h val q)) as Hn.
  { intros aw val rem C Hv. destruct rem as [|id rem]; [done|]. simpl. by apply finds_get. }
  induction cs as [|c cs IH]; intros aw val rem C Hv; [done|].
  destruct c; cbn [aw_calls calls_by].
  - f_equal; [f_equal; by apply Hn|by apply IH].
  - f_equal; [f_equal|by apply IH]. destruct rem as [|id rem]; [done|]. simpl. by rewrite (finds_get h aw q val id).
  - rewrite (finds_get h aw q val id) by done. f_equal. by apply IH.
  - f_equal. by apply IH.
  - f_equal. apply IH; [by apply left_rewr|]. intros t id. by rewrite rewr_comp, Hv.
Qed.

(** ** Theorems *)

(** Any sequence of calls on the iterator of any query of registered types and
    existing groups, no type borrowed twice with one of the two mutable, its
    non-owning groups (if any) undisturbed (C30): the iteration visits exactly
    the entities [from_id] answers for and the driving group has not left out,
    once each; [from_id], [next], [next_with_id] give the same item for the
    same entity, at any point of the iteration and after any writes. *)
Theorem C24_exact ops q : rules ops -> q_known (seen ops) q -> ~ q_conflict q -> q_undisturbed (seen ops) q ->
  exists l, answer ops (Query q) = Ret (OItems l) /\ NoDup l.*1 /\
    (forall id x, (id, x) ∈ l <->
       finds (seen ops) (value_of (seen ops)) q id = Some x /\ skips (seen ops) q id = false) /\
    forall cs, use ops q cs =
      Ret (calls_by (knows_size q) (fun val => finds (seen ops) val q) (value_of (seen ops)) l.*1 cs).
Proof.
  intros L K C U. destruct (reached ops L) as [H A]. pose proof (agree2_exec ops L) as A2.
  pose proof (hist_fresh _ _ _ A A2 U) as Fr. pose proof (hist_left _ _ _ A A2 K) as Le.
  assert (forall t id, value_of (seen ops) t id = comp (aexec ops a_init) t id) as Hv by apply (ag_val _ _ A).
  pose proof (proj1 (open_cases _ _ q A) K C) as O.
  pose proof (run_query_order _ _ q H Fr) as S. rewrite O in S. destruct S as (l & E & [N Q] & Ord).
  exists l. split; [|split; [done|split]].
  - unfold answer. simpl. unfold fmapM, bind, get, lift. by rewrite E.
  - intros id x. rewrite Q, (visits_iff _ _ q _ id Le Hv), (finds_get _ _ q _ id Le Hv).
    split; [tauto|]. intros [E1 E2]. rewrite E1. eauto.
  - intros cs. unfold use. pose proof (use_query_spec _ _ q cs H Fr) as S. rewrite O in S. rewrite S, Ord. f_equal.
    by apply calls_by_spec.
Qed.

(** The first sentence of C24, as far as it is true: whatever the iteration
    visits, [from_id] answers with the same item; an entity [from_id] answers
    for is visited, with that item, unless the driving group left it out. *)
Corollary C24_from_id_exact ops q id : rules ops -> q_known (seen ops) q -> ~ q_conflict q ->
  q_undisturbed (seen ops) q ->
  exists l r, answer ops (Query q) = Ret (OItems l) /\ use ops q [CFromId id] = Ret [AItem r] /\
    (forall x, (id, x) ∈ l <-> r = Some x /\ skips (seen ops) q id = false).
Proof.
  intros L K C U. destruct (C24_exact ops q L K C U) as (l & E & _ & X & Hu).
  exists l, (finds (seen ops) (value_of (seen ops)) q id). split; [done|]. split; [by rewrite Hu|].
  intros x. apply X.
Qed.
(** Nothing is skipped when the query is driven by a single reference, nor
    when batch attach has not been used. *)
Lemma ref_skips h q id m t : driver q = QRef m t -> skips h q id = false.
Proof. unfold skips. by intros ->. Qed.
Corollary C24_driven_by_ref ops q id m t : rules ops -> q_known (seen ops) q -> ~ q_conflict q ->
  q_undisturbed (seen ops) q -> driver q = QRef m t ->
  exists l r, answer ops (Query q) = Ret (OItems l) /\ use ops q [CFromId id] = Ret [AItem r] /\
    (forall x, (id, x) ∈ l <-> r = Some x).
Proof.
  intros L K C U D. destruct (C24_from_id_exact ops q id L K C U) as (l & r & E1 & E2 & X).
  exists l, r. split; [done|]. split; [done|]. intros x. rewrite X, (ref_skips _ _ _ _ _ D). tauto.
Qed.

(** ** [next] is [next_with_id] without the id *)

(** [qi_next] does what [qi_next_id] does. *)
Definition same_next (J : qiter V) : Prop := forall w st r st',
  qi_next_id J w st = (Ret r, st') -> qi_next J w st = (Ret (snd <$> r), st').

Lemma while_same {S X A B} (next : M S (option X)) (f : X -> M S (option A)) (g : X -> M S (option B)) (p : A -> B) :
  (forall x s r s', f x s = (Ret r, s') -> g x s = (Ret (p <$> r), s')) ->
  forall n s r s', while_some n next f s = (Ret r, s') -> while_some n next g s = (Ret (p <$> r), s').
Proof.
  intros Hfg. induction n as [|n IH]; intros s r s'; cbn [while_some]; [done|].
  unfold bind, ret. destruct (next s) as [[[x|]| | |] s1]; try done.
  2:{ intros [= <- <-]. done. }
  specialize (Hfg x s1). destruct (f x s1) as [[[y|]| | |] s2]; try done.
  - rewrite (Hfg _ _ eq_refl). cbn. intros [= <- <-]. done.
  - rewrite (Hfg _ _ eq_refl). cbn. apply IH.
Qed.
Lemma bind_get {S B} (f : S -> M S B) s : bind get f s = f s s.
Proof. done. Qed.
Ltac go_same := intros ? ? ?; unfold bind, ret, get;
  repeat match goal with
    | |- context [match on_snd ?m ?s with _ => _ end] => destruct (on_snd m s) as [[[?|]| | |] ?]
    | |- context [match on_fst ?m ?s with _ => _ end] => destruct (on_fst m s) as [[[?|]| | |] ?]
    end; cbn; try done; intros [= <- <-]; done.
Lemma same_with2 A B : same_next (with2 A B).
Proof.
  intros w st r st'. cbn [qi_next qi_next_id qi_st with2 with3 with4 with5 without_left without_right]. rewrite !bind_get. apply while_same. intros [id a]. go_same.
Qed.
Lemma same_with3 A B C : same_next (with3 A B C).
Proof. intros w st r st'. cbn [qi_next qi_next_id qi_st with2 with3 with4 with5 without_left without_right]. rewrite !bind_get. apply while_same. intros [id a]. go_same. Qed.
Lemma same_with4 A B C D : same_next (with4 A B C D).
Proof. intros w st r st'. cbn [qi_next qi_next_id qi_st with2 with3 with4 with5 without_left without_right]. rewrite !bind_get. apply while_same. intros [id a]. go_same. Qed.
Lemma same_with5 A B C D E : same_next (with5 A B C D E).
Proof. intros w st r st'. cbn [qi_next qi_next_id qi_st with2 with3 with4 with5 without_left without_right]. rewrite !bind_get. apply while_same. intros [id a]. go_same. Qed.
Lemma same_withoutl A B : same_next (without_left A B).
Proof. intros w st r st'. cbn [qi_next qi_next_id qi_st with2 with3 with4 with5 without_left without_right]. rewrite !bind_get. apply while_same. intros [id a]. go_same. Qed.
Lemma same_withoutr A B : same_next (without_right A B).
Proof. intros w st r st'. cbn [qi_next qi_next_id qi_st with2 with3 with4 with5 without_left without_right]. rewrite !bind_get. apply while_same. intros [id a]. go_same. Qed.

Lemma same_ref m t : same_next (iter_ref m t).
Proof.
  unfold same_next. cbn [qi_next qi_next_id qi_st iter_ref iter_full iter_part iter_non]. intros w st r st'. unfold bind, get, ptr, ent_unchecked, data_unchecked, put, ret, ub.
  destruct (w_comps w !! t) as [s|]; [|cbn; intros [=]]. destruct (st <? ss_len (st_set s)); [|cbn -[Nat.ltb]; intros [= <- <-]; reflexivity].
  destruct (entities (st_set s) !! st); [|cbn; intros [=]]. destruct (st <? length (sdata (st_set s))); [|cbn; intros [=]].
  cbn -[Nat.ltb]; intros [= <- <-]; reflexivity.
Qed.
Lemma same_full ma mb a b n : same_next (iter_full ma mb a b n).
Proof.
  unfold same_next. cbn [qi_next qi_next_id qi_st iter_ref iter_full iter_part iter_non]. intros w st r st'. unfold bind, get, ptr, ent_unchecked, data_unchecked, put, ret, ub.
  destruct (st <? n); [|cbn -[Nat.ltb]; intros [= <- <-]; reflexivity].
  destruct (w_comps w !! a) as [s|]; [|cbn; intros [=]]. destruct (w_comps w !! b) as [s'|]; [|cbn; intros [=]].
  destruct (entities (st_set s) !! st); [|cbn; intros [=]]. destruct (st <? length (sdata (st_set s))); [|cbn; intros [=]].
  destruct (st <? length (sdata (st_set s'))); [|cbn; intros [=]]. cbn -[Nat.ltb]; intros [= <- <-]; reflexivity.
Qed.
Lemma same_part ma mb a b n : same_next (iter_part ma mb a b n).
Proof.
  unfold same_next. cbn [qi_next qi_next_id qi_st iter_ref iter_full iter_part iter_non]. intros w st r st'. unfold bind, get, ptr, ent_unchecked, data_unchecked, put, ret, ub, lift.
  destruct (st <? n); [|cbn -[Nat.ltb]; intros [= <- <-]; reflexivity].
  destruct (w_comps w !! a) as [s|]; [|cbn; intros [=]]. destruct (w_comps w !! b) as [s'|]; [|cbn; intros [=]].
  destruct (entities (st_set s) !! st) as [e|]; [|cbn; intros [=]]. destruct (st <? length (sdata (st_set s))); [|cbn; intros [=]].
  destruct (ss_get_loc (st_set s') e) as [[i|]| | |]; [|cbn; intros [=]..]. cbn -[Nat.ltb]; intros [= <- <-]; reflexivity.
Qed.
Lemma same_non ma mb a b gi : same_next (iter_non ma mb a b gi).
Proof.
  unfold same_next. cbn [qi_next qi_next_id qi_st iter_ref iter_full iter_part iter_non]. intros w st r st'. unfold bind, get, ptr, gptr, data_unchecked, put, ret, ub.
  destruct (w_groups w !! gi) as [[g|g|g]|]. 1,2,4: cbn; intros [=].
  destruct (st <? ss_len (nd_set g)); [|cbn -[Nat.ltb]; intros [= <- <-]; reflexivity].
  destruct (entities (nd_set g) !! st) as [e|]; [|cbn; intros [=]]. destruct (sdata (nd_set g) !! st) as [[ja jb]|]; [|cbn; intros [=]].
  destruct (w_comps w !! a) as [s|]; [|cbn; intros [=]]. destruct (w_comps w !! b) as [s'|]; [|cbn; intros [=]].
  destruct (ja <? length (sdata (st_set s))); [|cbn; intros [=]]. destruct (jb <? length (sdata (st_set s'))); [|cbn; intros [=]].
  cbn -[Nat.ltb]; intros [= <- <-]; reflexivity.
Qed.

Lemma bind_ret_inv {S A B} (m : M S A) (f : A -> M S B) s y s' :
  bind m f s = (Ret y, s') -> exists x s1, m s = (Ret x, s1) /\ f x s1 = (Ret y, s').
Proof. unfold bind. destruct (m s) as [[x| | |] s1]; try done. eauto. Qed.
Lemma open_same w q : forall hd J hd', query_open w q hd = (Ret J, hd') -> same_next J.
Proof.
  induction q; intros hd J hd' E; cbn [query_open] in E;
    repeat (let x := fresh in let s := fresh in let E1 := fresh in
            apply bind_ret_inv in E as (x & s & E1 & E)).
  - injection E as <- <-. apply same_ref.
  - injection E as <- <-. apply same_with2.
  - injection E as <- <-. apply same_with3.
  - injection E as <- <-. apply same_with4.
  - injection E as <- <-. apply same_with5.
  - injection E as <- <-. apply same_withoutl.
  - injection E as <- <-. apply same_withoutr.
  - destruct k.
    + injection E as <- <-. apply same_full.
    + injection E as <- <-. apply same_part.
    + match type of E with (match ?g with _ => _ end) _ = _ => destruct g end; try done.
      injection E as <- <-. apply same_non.
Qed.

(** The same calls, some [next_with_id]s replaced by [next]s. *)
Definition same_call (c c' : qcall V) : Prop := c = c' \/ c = CNextId /\ c' = CNext.
Definition same_ans (c c' : qcall V) (a a' : qans V) : Prop :=
  c = c' /\ a = a' \/ c = CNextId /\ c' = CNext /\ exists r, a = AIdItem r /\ a' = AItem (snd <$> r).

Lemma run_calls_same J cs cs' : same_next J -> Forall2 same_call cs cs' -> forall s l s',
  run_calls J cs s = (Ret l, s') -> exists l', run_calls J cs' s = (Ret l', s') /\
    Forall2 (fun x y => same_ans x.1 y.1 x.2 y.2) (zip cs l) (zip cs' l') /\ length l = length cs /\ length l' = length l.
Proof.
  intros HJ F. induction F as [|c c' cs cs' Hc F IH]; intros s l s' E.
  - injection E as <- <-. exists []. split; [done|]. split; [constructor|done].
  - cbn [run_calls] in *. apply bind_ret_inv in E as (a & s1 & E1 & E).
    apply bind_ret_inv in E as (l1 & s2 & E2 & E). injection E as <- <-.
    destruct (IH _ _ _ E2) as (l1' & E2' & F2 & Hl & Hl').
    assert (exists a', run_call J c' s = (Ret a', s1) /\ same_ans c c' a a') as (a' & E1' & Sa).
    { destruct Hc as [<-|[-> ->]].
      - exists a. split; [done|]. by left.
      - destruct s as [w st]. cbn [run_call] in *. pose proof (HJ w st) as Hn.
        destruct (qi_next_id J w st) as [[[[id it]|]| | |] st']; try done.
        + rewrite (Hn _ _ eq_refl). cbn. destruct (deref w it) as [v|]; [|done]. injection E1 as <- <-.
          eexists. split; [done|]. right. split; [done|]. split; [done|]. by exists (Some (id, v)).
        + rewrite (Hn _ _ eq_refl). cbn. injection E1 as <- <-.
          eexists. split; [done|]. right. split; [done|]. split; [done|]. by exists None. }
    exists (a' :: l1'). split; [|split; [|simpl; lia]].
    + unfold bind at 1. rewrite E1'. unfold bind at 1. rewrite E2'. done.
    + cbn [zip]. by constructor.
Qed.

(** After every history, for every query and every sequence of calls: if some
    or all of the calls of [next_with_id] in the sequence are replaced by
    [next], the answers are the same without the ids.  (The first sequence is
    assumed to run through, see C33 and C45 for when this is the case.) *)
Theorem C24_next_is_next_with_id ops q cs cs' l : Forall2 same_call cs cs' -> use ops q cs = Ret l ->
  exists l', use ops q cs' = Ret l' /\ length l = length cs /\ length l' = length cs' /\
    Forall2 (fun x y => same_ans x.1 y.1 x.2 y.2) (zip cs l) (zip cs' l').
Proof.
  intros F. unfold use, use_query. pose proof (open_same (after ops) q []) as O.
  destruct (query_open (after ops) q []) as [[J| | |] hd]; try done. cbn [fst].
  specialize (O _ _ eq_refl). intros E. destruct (run_calls J cs (after ops, qi_init J)) as [o s'] eqn:Er.
  cbn in E. subst o. destruct (run_calls_same J cs cs' O F _ _ _ Er) as (l' & E' & F' & Hl & Hl').
  exists l'. rewrite E'. split; [done|]. split; [done|]. split; [|done].
  rewrite Hl', Hl. by apply Forall2_length in F.
Qed.


(** ** C22, C23, C25 with groups that have left out entities *)

Lemma filter_sublist {A} (P : A -> Prop) `{forall x, Decision (P x)} (l : list A) : filter P l `sublist_of` l.
Proof.
  induction l as [|x l IH]; [done|]. rewrite filter_cons. destruct (decide (P x)).
  - by apply sublist_skip.
  - by apply sublist_cons.
Qed.
(** The query can be opened and its non-owning groups are undisturbed. *)
Definition q_opens h q : Prop := q_known h q /\ ~ q_conflict q /\ q_undisturbed h q.
Lemma opens_sub h qa q l1 l2 g1 g2 : q_refs q = l1 ++ q_refs qa ++ l2 -> q_groups q = g1 ++ q_groups qa ++ g2 ->
  q_opens h q -> q_opens h qa.
Proof.
  intros E1 E2 (K & C & U). split; [|split].
  - apply known_Forall in K as [K1 K2]. rewrite E1, !Forall_app in K1. rewrite E2, !Forall_app in K2.
    apply known_Forall. tauto.
  - intros C'. apply C. by eapply q_conflict_sub.
  - apply undisturbed_Forall in U. rewrite E2, !Forall_app in U. apply undisturbed_Forall. tauto.
Qed.
Lemma opens_parts h q p : q_opens h q -> p ∈ parts q -> q_opens h p.
Proof.
  intros F Hp.
  assert (q_refs q = concat (q_refs <$> parts q) /\ q_groups q = concat (q_groups <$> parts q)) as [E1 E2].
  { destruct q; simpl; rewrite ?app_nil_r; try done; by apply elem_of_nil in Hp. }
  apply elem_of_list_split in Hp as (k1 & k2 & E). rewrite E in E1, E2.
  rewrite fmap_app, fmap_cons, concat_app in E1.
  rewrite fmap_app, fmap_cons, concat_app in E2. by eapply opens_sub.
Qed.

(** [from_id(id)] of a new iterator of the query answers [r] *)
Definition from_id ops q id (r : option (vtree V)) : Prop := use ops q [CFromId id] = Ret [AItem r].

Lemma opens_spec ops q : rules ops -> q_opens (seen ops) q ->
  exists l, answers ops q l /\ l.*1 = q_list (after ops) (aexec ops a_init) q /\ NoDup l.*1 /\
    (forall id x, (id, x) ∈ l <->
       finds (seen ops) (value_of (seen ops)) q id = Some x /\ skips (seen ops) q id = false) /\
    (forall id r, from_id ops q id r <-> finds (seen ops) (value_of (seen ops)) q id = r).
Proof.
  intros L (K & C & U). destruct (reached ops L) as [H A]. pose proof (agree2_exec ops L) as A2.
  pose proof (hist_fresh _ _ _ A A2 U) as Fr. pose proof (proj1 (open_cases _ _ q A) K C) as O.
  destruct (C24_exact ops q L K C U) as (l & E & N & X & Hu). exists l. split; [done|].
  split.
  { pose proof (run_query_order _ _ q H Fr) as S. rewrite O in S. destruct S as (l' & E' & _ & Ord).
    apply answers_run in E. rewrite E in E'. by injection E' as ->. }
  split; [done|]. split; [done|]. intros id r. unfold from_id. rewrite Hu. cbn [calls_by].
  split; [by intros [= ?]|by intros ->].
Qed.

Lemma finds_tuple h val q id (v : vtree V) : is_tuple q = true ->
  finds h val q id = Some v <->
  exists xs, tuple_of xs = Some v /\ Forall2 (fun p x => finds h val p id = Some x) (parts q) xs.
Proof.
  intros T. split.
  - destruct q; try done; simpl; intros E;
      repeat match type of E with context [match ?t with _ => _ end] => destruct t eqn:?; try done end;
      injection E as <-.
    + eexists [_; _]. split; [done|]. by repeat constructor.
    + eexists [_; _; _]. split; [done|]. by repeat constructor.
    + eexists [_; _; _; _]. split; [done|]. by repeat constructor.
    + eexists [_; _; _; _; _]. split; [done|]. by repeat constructor.
  - intros (xs & E & F). destruct q; try done; simpl in *;
      repeat match goal with H : Forall2 _ _ _ |- _ => inversion H; clear H; subst end;
      simpl in E; injection E as <-;
      repeat match goal with H : finds _ _ _ _ = Some _ |- _ => rewrite H; clear H end; done.
Qed.

(** A tuple query is the join of its parts, read as the code reads them: the
    entities the first part visits, in its order, for which every other part
    answers [from_id]; the item is made of these answers. *)
Theorem C22_join_exact ops q p ps : rules ops -> q_opens (seen ops) q -> is_tuple q = true -> parts q = p :: ps ->
  exists l lp, answers ops q l /\ answers ops p lp /\ NoDup lp.*1 /\ l.*1 `sublist_of` lp.*1 /\
    forall id (v : vtree V), (id, v) ∈ l <->
      exists x xs, tuple_of (x :: xs) = Some v /\ (id, x) ∈ lp /\
        Forall2 (fun p' y => from_id ops p' id (Some y)) ps xs.
Proof.
  intros L O T Ep. destruct (opens_spec ops q L O) as (l & E & Ord & N & X & _).
  assert (forall p', p' ∈ parts q -> q_opens (seen ops) p') as Op by (intros; by eapply opens_parts).
  destruct (opens_spec ops p L) as (lp & El & Ordp & Np & Xp & _); [apply Op; rewrite Ep; left|].
  exists l, lp. split; [done|]. split; [done|]. split; [done|]. split.
  { rewrite Ord, Ordp. destruct q; try done; injection Ep as <- <-; cbn [q_list]; apply filter_sublist. }
  assert (skips (seen ops) q = skips (seen ops) p) as Sk.
  { destruct q; try done; injection Ep as <- <-; done. }
  intros id v. rewrite X, (finds_tuple _ _ q id v T), Ep, Sk.
  assert (forall xs, Forall2 (fun p0 x => finds (seen ops) (value_of (seen ops)) p0 id = Some x) ps xs <->
     Forall2 (fun p' y => from_id ops p' id (Some y)) ps xs) as Hf.
  { assert (forall p' r, p' ∈ ps -> from_id ops p' id r <-> finds (seen ops) (value_of (seen ops)) p' id = r) as Hf.
    { intros p' r Hp'. destruct (opens_spec ops p' L) as (_ & _ & _ & _ & _ & Hf); [|apply Hf].
      apply Op. rewrite Ep. by right. }
    clear -Hf. induction ps as [|p' ps IH]; intros xs.
    - split; intros F; inversion F; constructor.
    - split; intros F; inversion F; subst; constructor; try (apply Hf; [left|done]);
        (apply IH; [intros; apply Hf; by right|done]). }
  split.
  - intros [(xs & Et & F) Es]. inversion F as [|? x ? xs' Hx F']; subst. exists x, xs'.
    split; [done|]. split; [by apply Xp|]. by apply Hf.
  - intros (x & xs & Et & Hx & F). apply Xp in Hx as [Hx Es]. split; [|done]. exists (x :: xs). split; [done|].
    constructor; [done|]. by apply Hf.
Qed.

(** [(A, Without<B>)] and [(Without<B>, A)]: the items of [A], in its order,
    of the entities for which [B] does not answer [from_id]. *)
Theorem C23_without_exact ops q a b : rules ops -> q_opens (seen ops) q ->
  q = QWithoutR a b \/ q = QWithoutL b a ->
  exists l la, answers ops q l /\ answers ops a la /\ NoDup la.*1 /\ l.*1 `sublist_of` la.*1 /\
    forall id (v : vtree V), (id, v) ∈ l <-> (id, v) ∈ la /\ from_id ops b id None.
Proof.
  intros L O Hq. destruct (opens_spec ops q L O) as (l & E & Ord & N & X & _).
  assert (q_opens (seen ops) a /\ q_opens (seen ops) b) as [Oa Ob].
  { split; apply (opens_parts _ q); try done; destruct Hq as [-> | ->]; cbn [parts]; set_solver. }
  destruct (opens_spec ops a L Oa) as (la & Ea & Orda & Na & Xa & _).
  destruct (opens_spec ops b L Ob) as (_ & _ & _ & _ & _ & Hb).
  exists l, la. split; [done|]. split; [done|]. split; [done|]. split.
  { rewrite Ord, Orda. destruct Hq as [-> | ->]; cbn [q_list]; apply filter_sublist. }
  intros id v. rewrite X, Xa, Hb.
  assert (finds (seen ops) (value_of (seen ops)) q id =
    match finds (seen ops) (value_of (seen ops)) b id with
    | None => finds (seen ops) (value_of (seen ops)) a id | Some _ => None end) as ->
    by (destruct Hq as [-> | ->]; done).
  assert (skips (seen ops) q id = skips (seen ops) a id) as -> by (destruct Hq as [-> | ->]; done).
  destruct (finds (seen ops) (value_of (seen ops)) b id); split; try tauto.
  - by intros [? ?].
  - by intros [_ ?].
Qed.

(** Writing through every item of a mutable iteration, with groups that may
    have left out entities: the items show the values from before, and
    exactly the mutable components of the visited entities are rewritten. *)
Theorem C25_written_exact ops q f : rules ops -> q_opens (seen ops) q ->
  exists l, answers ops q l /\ NoDup l.*1 /\
    answer ops (QueryMut q f) = Ret (OItems l) /\
    forall t id, answer (ops ++ [QueryMut q f]) (ReadComp t id) =
      Ret (OVal (if decide (id ∈ l.*1 /\ t ∈ q_muts q) then f t id <$> value_of (seen ops) t id
                 else value_of (seen ops) t id)).
Proof.
  intros L O. destruct (opens_spec ops q L O) as (l & E & _ & N & _). exists l. split; [done|]. split; [done|].
  destruct (reached ops L) as [H A]. pose proof (agree2_exec ops L) as A2.
  pose proof (hist_fresh _ _ _ A A2 (proj2 (proj2 O))) as Fr.
  assert (answer ops (QueryMut q f) = Ret (OItems l)) as Ha.
  { apply answers_run in E. unfold answer. simpl. unfold fmapM, bind. pose proof (run_query_mut_same _ _ q f H Fr) as S.
    rewrite E in S. destruct (run_query_mut q f (after ops)) as [r w']. simpl in S. by subst r. }
  split; [done|]. intros t id. assert (rules (ops ++ [QueryMut q f])) as L' by (apply rules_snoc; split; [done|exact Fr]).
  unfold answer. rewrite (C01_read_last_written _ t id L'). cbn [fst]. rewrite seen_snoc, value_snoc, Ha. done.
Qed.

End exact.

(** *** Cases *)

(** A full-owning group of types 1 and 2: entity 1 joins it by single
    attaches, entities 2 and 3 are left out (batch attach); type 3 is on
    entities 1 and 2. *)
Definition left_sample : list (op nat) :=
  [Register 1; Register 2; Register 3; MakeGroup KFull 1 2; CreateEntity; Attach 1 1 11; Attach 2 1 21; Attach 3 1 31;
   CreateEntities 2; BatchAttach 2 4 1 [12; 13]; BatchAttach 2 4 2 [22; 23]; Attach 3 2 32].
Lemma left_sample_rules : rules left_sample.
Proof. check_rules. Qed.
Definition left_q1 : query := Q2 (QGroup KFull true false 1 2) (QRef false 3).
Definition left_q2 : query := Q2 (QRef false 3) (QGroup KFull true false 1 2).
Definition left_q3 : query := QWithoutR (QRef false 3) (QGroup KFull true false 1 2).
Lemma left_opens q : q = left_q1 \/ q = left_q2 \/ q = left_q3 \/ q = QGroup KFull true false 1 2 ->
  q_opens (seen left_sample) q.
Proof.
  intros Hq. split; [|split].
  - apply known_Forall. split; apply Forall_forall; intros y Hy.
    + assert (y.1 = 1 \/ y.1 = 2 \/ y.1 = 3) as [-> | [-> | ->]] by (destruct Hq as [-> | [-> | [-> | ->]]]; simpl in Hy; set_solver); by_compute.
    + assert (y = (KFull, 1, 2)) as -> by (destruct Hq as [-> | [-> | [-> | ->]]]; simpl in Hy; set_solver). by_compute.
  - rewrite <- clash_conflict. destruct Hq as [-> | [-> | [-> | ->]]]; vm_compute; discriminate.
  - intros a b Hg. exfalso. destruct Hq as [-> | [-> | [-> | ->]]]; simpl in Hg; set_solver.
Qed.

(** the group alone, by itself first and second in a tuple, and in [Without]:
    the iteration of the group skips entities 2 and 3, [from_id] does not *)
Example C24_exact_case :
  rules left_sample /\ q_opens (seen left_sample) (QGroup KFull true false 1 2) /\
  answer left_sample (Query (QGroup KFull true false 1 2)) = Ret (OItems [(1, V2 (VLeaf 11) (VLeaf 21))]) /\
  skips (seen left_sample) (QGroup KFull true false 1 2) 3 = true /\
  use left_sample (QGroup KFull true false 1 2) [CFromId 3; CNext; CFromId 1; CNextId; CFromId 4] =
    Ret [AItem (Some (V2 (VLeaf 13) (VLeaf 23))); AItem (Some (V2 (VLeaf 11) (VLeaf 21)));
         AItem (Some (V2 (VLeaf 11) (VLeaf 21))); AIdItem None; AItem None].
Proof.
  split; [exact left_sample_rules|]. split; [apply left_opens; auto|].
  split; [vm_compute; reflexivity|]. split; vm_compute; reflexivity.
Qed.
Example C22_exact_case :
  rules left_sample /\ q_opens (seen left_sample) left_q1 /\ q_opens (seen left_sample) left_q2 /\
  answer left_sample (Query left_q1) = Ret (OItems [(1, V2 (V2 (VLeaf 11) (VLeaf 21)) (VLeaf 31))]) /\
  answer left_sample (Query left_q2) =
    Ret (OItems [(1, V2 (VLeaf 31) (V2 (VLeaf 11) (VLeaf 21))); (2, V2 (VLeaf 32) (V2 (VLeaf 12) (VLeaf 22)))]).
Proof.
  split; [exact left_sample_rules|]. split; [apply left_opens; auto|]. split; [apply left_opens; auto|].
  split; vm_compute; reflexivity.
Qed.
Example C23_exact_case :
  rules left_sample /\ q_opens (seen left_sample) left_q3 /\
  answer left_sample (Query left_q3) = Ret (OItems []).
Proof.
  split; [exact left_sample_rules|]. split; [apply left_opens; auto|]. vm_compute; reflexivity.
Qed.
Example C25_exact_case :
  rules left_sample /\ q_opens (seen left_sample) left_q2 /\
  answer (left_sample ++ [QueryMut left_q2 (fun t id v => v + 100)]) (Query (QRef false 1)) =
    Ret (OItems [(1, VLeaf 111); (2, VLeaf 112); (3, VLeaf 13)]) /\
  answer (left_sample ++ [QueryMut left_q2 (fun t id v => v + 100)]) (Query (QRef false 2)) =
    Ret (OItems [(1, VLeaf 21); (2, VLeaf 22); (3, VLeaf 23)]).
Proof.
  split; [exact left_sample_rules|]. split; [apply left_opens; auto|].
  split; vm_compute; reflexivity.
Qed.
Example C24_next_case :
  Forall2 same_call [CNextId; CFromId 2; CNextId; CHint; CNextId] [CNext; CFromId 2; CNextId; CHint; @CNext nat] /\
  use left_sample left_q2 [CNextId; CFromId 2; CNextId; CHint; CNextId] =
    Ret [AIdItem (Some (1, V2 (VLeaf 31) (V2 (VLeaf 11) (VLeaf 21)))); AItem (Some (V2 (VLeaf 32) (V2 (VLeaf 12) (VLeaf 22))));
         AIdItem (Some (2, V2 (VLeaf 32) (V2 (VLeaf 12) (VLeaf 22)))); AHint None; AIdItem None].
Proof.
  split; [|vm_compute; reflexivity]. repeat (constructor; [first [by left|by right]|]). constructor.
Qed.

(** So, with a group that has left out an entity, the join is not the
    intersection of what its parts visit: entity 2 is visited by the join of
    [&T3] and the group, but not by the group. *)
Theorem C22_left_out_refuted : exists (ops : list (op nat)) a b l lb id, rules ops /\ q_opens (seen ops) (Q2 a b) /\
  answers ops (Q2 a b) l /\ answers ops b lb /\ id ∈ l.*1 /\ id ∉ lb.*1.
Proof.
  exists left_sample, (QRef false 3), (QGroup KFull true false 1 2). eexists _, _, 2.
  split; [exact left_sample_rules|]. split; [apply left_opens; auto|].
  split; [vm_compute; reflexivity|]. split; [vm_compute; reflexivity|]. cbn. set_solver.
Qed.
(** Nor is the anti-join the difference: entity 2 has type 3 and is not
    visited by the group, but is not visited by [(&T3, Without<group>)]. *)
Theorem C23_left_out_refuted : exists (ops : list (op nat)) a b l la lb id, rules ops /\ q_opens (seen ops) (QWithoutR a b) /\
  answers ops (QWithoutR a b) l /\ answers ops a la /\ answers ops b lb /\ id ∈ la.*1 /\ id ∉ lb.*1 /\ id ∉ l.*1.
Proof.
  exists left_sample, (QRef false 3), (QGroup KFull true false 1 2). eexists _, _, _, 2.
  split; [exact left_sample_rules|]. split; [apply left_opens; auto|].
  split; [vm_compute; reflexivity|]. split; [vm_compute; reflexivity|]. split; [vm_compute; reflexivity|].
  cbn. set_solver.
Qed.

(** C25 fails for a non-owning group that has been disturbed (C30): two
    entities' items of one iteration refer mutably to the same component.
    Here: entities 1 and 2 are in the group, entity 1 loses type 1 (entity 2's
    component moves to position 0, the group still says 1), entity 3 gets both
    types (its component is at position 1). *)
Theorem C25_stale_refuted : exists (ops : list (op nat)) q l id id' it it' t i, rules ops /\
  q_known (seen ops) q /\ ~ q_conflict q /\
  query_items (after ops) q = Ret l /\ l !! 0 = Some (id, it) /\ l !! 1 = Some (id', it') /\ id <> id' /\
  (true, t, i) ∈ item_refs it /\ (true, t, i) ∈ item_refs it'.
Proof.
  exists [Register 1; Register 2; MakeGroup KNon 1 2; CreateEntities 3; Attach 1 1 11; Attach 2 1 21; Attach 1 2 12; Attach 2 2 22;
          Detach 1 1; Attach 1 3 13; Attach 2 3 23], (QGroup KNon true false 1 2).
  eexists _, _, _, _, _, 1, 1. split; [check_rules|]. split; [|split].
  - apply known_Forall. split; apply Forall_forall; intros y Hy.
    + assert (y.1 = 1 \/ y.1 = 2) as [-> | ->] by (simpl in Hy; set_solver); by_compute.
    + assert (y = (KNon, 1, 2)) as -> by (simpl in Hy; set_solver). by_compute.
  - rewrite <- clash_conflict. vm_compute; discriminate.
  - split; [vm_compute; reflexivity|]. split; [reflexivity|]. split; [reflexivity|]. split; [discriminate|]. cbn. set_solver.
Qed.

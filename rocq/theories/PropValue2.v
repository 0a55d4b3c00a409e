(** C52: threads cannot duplicate values.  Vocabulary: SpecValue.v,
    SpecValue2.v. *)
From stdpp Require Import prelude list gmap.
From Verif Require Import Base Api ModelSparse ModelEntity ModelGroup ModelWorld ModelQuery ModelStep ModelConc
  Spec History SpecValue SpecValue2 SpecConc SpecApart Rules Samples ProofValue ProofValue3 ProofValue4 PropValue PropLin PropConc PropConc2 PropApart.

Section value2.
Context {V : Type}.
Implicit Types (ops : list (op V)) (t id : nat) (v : V) (d : list V) (cs : list (client V)).

Lemma stores_held (w : world V) t d : stores w t d -> held t w = d.
Proof.
  unfold stores. cbn [step]. rewrite fmap_fst. unfold via_storage, bind, get, lift, components_read, held, ret.
  destruct (w_comps w !! t) as [st|]; [|done]. destruct (st_ty st =? t); [|done]. cbn. by intros [= ->].
Qed.

(** Threads that give only what they have, in any use of the library (calls,
    handles, batches, guards, iterators), on any world whatever, at any
    schedule, races and panics included: the values stored are among those
    stored in the beginning and those the threads had, each at most as often. *)
Theorem C52_no_copies (w0 : world V) cs hands sched c t d0 d : Forall2 (honest t) hands cs ->
  run sched (start w0 cs) = Some c -> stores w0 t d0 -> stores (cf_world c) t d ->
  d ⊆+ d0 ++ concat hands.
Proof.
  intros Hh Hr H0 H1. apply stores_held in H0 as <-. apply stores_held in H1 as <-.
  destruct (run_hinv t (held t w0 ++ concat hands) sched (start w0 cs) c) as (Hs & _ & Hle); [by apply start_hinv|done|].
  etransitivity; [|exact Hle]. by apply submseteq_inserts_r.
Qed.

(** The same told by what was said: threads that make calls one after the
    other, any calls but those that change values in place.  At every point the
    values stored, and those the threads were given back, are together among
    those stored in the beginning, those given in the calls that have
    returned, and those given in the calls being made. *)
Theorem C52_handed_over_once ops cs sched c t d0 d : Forall (fun cl => calls_only cl /\ no_in_place cl) cs ->
  run sched (start (after ops) cs) = Some c -> shows ops t d0 -> stores (cf_world c) t d ->
  d ++ concat (imap (fun i _ => all_returned t (got ops cs sched i)) cs) ⊆+
  d0 ++ concat (imap (fun i _ => all_given t (got ops cs sched i)) cs) ++
    concat (imap (fun i cl => underway t (follow i (enter cl) sched (start (after ops) cs)).2) cs).
Proof.
  intros Hcs Hr H0 H1. apply shows_held in H0 as <-. apply stores_held in H1 as <-.
  destruct (linv_run t (after ops) cs Hcs sched c Hr) as (Hs & _ & _ & Hle).
  assert (concat (imap (fun i cl => underway t (follow i (enter cl) sched (start (after ops) cs)).2) cs) = tot cs (fun i => underway t (now (after ops) cs sched i))) as ->.
  { unfold tot. f_equal. apply imap_ext. intros i cl Hi. unfold now. by rewrite Hi. }
  etransitivity; [|exact Hle]. apply submseteq_app; [done|]. by apply submseteq_inserts_r.
Qed.
Lemma in_concat (l : list (list V)) i a : l !! i = Some a -> a ⊆+ concat l.
Proof.
  revert i. induction l as [|x l IH]; intros i Hi; [done|]. destruct i as [|i]; cbn [concat]; [injection Hi as ->; by apply submseteq_inserts_r|].
  apply submseteq_inserts_l. by eapply IH.
Qed.
Lemma two_in_concat (l : list (list V)) i j a b : i <> j -> l !! i = Some a -> l !! j = Some b -> a ++ b ⊆+ concat l.
Proof.
  revert i j a b. assert (forall i j a b, i < j -> l !! i = Some a -> l !! j = Some b -> a ++ b ⊆+ concat l) as Hlt.
  { induction l as [|x l IH]; intros i j a b Hij Hi Hj; [done|]. destruct j as [|j]; [lia|]. destruct i as [|i]; cbn [concat].
    - injection Hi as ->. apply submseteq_app; [done|]. by eapply in_concat.
    - apply submseteq_inserts_l. eapply (IH i j); [lia|done|done]. }
  intros i j a b Hij Hi Hj. destruct (decide (i < j)) as [?|Hn]; [by eapply Hlt|]. rewrite Permutation_app_comm. eapply (Hlt j i); [lia|done|done].
Qed.
Lemma elem_sub (v : V) l : v ∈ l -> [v] ⊆+ l.
Proof. intros (l1 & l2 & ->)%elem_of_list_split. apply submseteq_inserts_l, submseteq_skip, submseteq_nil_l. Qed.
Lemma once_only (v : V) l e : [v; v] ⊆+ l ++ e -> NoDup l -> v ∉ e -> False.
Proof.
  intros Hs Hn He. apply submseteq_Permutation in Hs as (k & Hk). assert (v ∈ l ++ e) as Hv. { rewrite Hk. by left. }
  apply elem_of_app in Hv as [Hv|?]; [|done]. apply elem_of_Permutation in Hv as (l' & Hl). rewrite Hl in Hk, Hn. cbn [app] in Hk. apply Permutation_cons_inv in Hk.
  assert (v ∈ l' ++ e) as Hv. { rewrite Hk. by left. } apply NoDup_cons in Hn as [Hn _]. by apply elem_of_app in Hv as [?|?].
Qed.
(** Two threads detach the same component of the same entity at the same time:
    if the value was there once, only one of them gets it. *)
Corollary C52_one_winner ops cs sched c t d0 d i j v : Forall (fun cl => calls_only cl /\ no_in_place cl) cs ->
  run sched (start (after ops) cs) = Some c -> shows ops t d0 -> stores (cf_world c) t d ->
  v ∉ concat (imap (fun i _ => all_given t (got ops cs sched i)) cs) ->
  v ∉ concat (imap (fun i cl => underway t (follow i (enter cl) sched (start (after ops) cs)).2) cs) ->
  NoDup d0 -> i <> j -> v ∈ all_returned t (got ops cs sched i) -> v ∉ all_returned t (got ops cs sched j) /\ v ∉ d.
Proof.
  intros Hcs Hr H0 H1 Hg Hu Hd Hij Hi. pose proof (C52_handed_over_once ops cs sched c t d0 d Hcs Hr H0 H1) as Hle.
  assert (v ∉ concat (imap (fun i _ => all_given t (got ops cs sched i)) cs) ++ concat (imap (fun i cl => underway t (follow i (enter cl) sched (start (after ops) cs)).2) cs)) as Hn by (rewrite elem_of_app; by intros [?|?]).
  assert (forall n, v ∈ all_returned t (got ops cs sched n) -> imap (fun i _ => all_returned t (got ops cs sched i)) cs !! n = Some (all_returned t (got ops cs sched n))) as Hl.
  { intros n Hv. rewrite list_lookup_imap. unfold got in *. destruct (cs !! n) as [cl|]; [done|]. unfold all_returned in Hv. cbn in Hv. by apply elem_of_nil in Hv. }
  split; intros Hv; (eapply once_only; [|exact Hd|exact Hn]); (etransitivity; [|exact Hle]).
  - apply submseteq_inserts_l. etransitivity; [|eapply two_in_concat; [exact Hij|by apply Hl|by apply Hl]]. apply (submseteq_app [v] _ [v] _); by apply elem_sub.
  - apply (submseteq_app [v] _ [v] _); [by apply elem_sub|]. etransitivity; [|eapply in_concat; by apply Hl]. by apply elem_sub.
Qed.
End value2.

(** Three threads on the world of [sample]: two detach the same component and
    give what they got to other entities, one by a handle; the third attaches a
    batch and overwrites through a storage guard. *)
Definition pass_on (id to : nat) : client nat :=
  Call (Detach 1 id) (fun r => match r with Ret (OVal (Some v)) => Call (Attach 1 to v) (fun _ => Done) | _ => Done end).
Definition value_cs : list (client nat) :=
  [ GetEntity 4 (fun r => match r with Ret true => HDetach 0 1 (fun r => match r with Ret (Some v) => Call (Attach 1 5 v) (fun _ => Done) | _ => Done end) | _ => Done end);
    NewEntities 2 (fun _ => HBatch 0 1 [80; 81] (fun _ => GetStore 1 true (fun b => if b then Use 0 (WriteComp 1 3 82) (fun _ => Done) else Done)));
    pass_on 4 3 ].
Example C52_no_copies_case : Forall2 (honest 1) [[]; [80; 81; 82]; []] value_cs /\ stores (after sample) 1 [144; 15; 33] /\
  exists sched, runs sched (start (after sample) value_cs) = true /\ all_done (at_end sched (start (after sample) value_cs)) = true /\
    take 14 sched = [0; 2; 0; 2; 0; 2; 0; 2; 0; 2; 0; 2; 0; 2] /\ stores (cf_world (at_end sched (start (after sample) value_cs))) 1 [144; 82; 80; 81].
Proof.
  split; [|split; [vm_compute; reflexivity|]].
  - repeat apply Forall2_cons_2; [..|apply Forall2_nil_2].
    + cbn [honest]. intros [[]| | |]; try done. cbn [honest]. intros [[v|]| | |]; try done. split; [done|]. exists []. split; [done|]. done.
    + cbn [honest]. intros _. exists [82]. split; [done|]. intros _ []; [|done]. split; [done|]. exists []. split; done.
    + split; [done|]. exists []. split; [done|]. intros [[| | | | |[v|]| | | | |]| | |]; try done. split; [done|]. exists []. done.
  - assert (exists s, s = (robin 1000 0 (start (after sample) value_cs)).2) as [s E] by by eexists. vm_compute in E.
    exists s. rewrite E. split; [vm_compute; done|]. split; [vm_compute; done|]. split; [done|]. vm_compute. reflexivity.
Qed.
(** Two threads detach the same component and pass it on. *)
Definition race_cs : list (client nat) := [pass_on 4 3; pass_on 4 5].
Example C52_handed_over_once_case : Forall (fun cl => calls_only cl /\ no_in_place cl) race_cs /\ shows sample 1 [144; 15; 33] /\
  exists sched, runs sched (start (after sample) race_cs) = true /\ all_done (at_end sched (start (after sample) race_cs)) = true /\
    take 8 sched = [0; 1; 0; 1; 0; 1; 0; 1] /\ stores (cf_world (at_end sched (start (after sample) race_cs))) 1 [15; 144] /\
    map (got sample race_cs sched) [0; 1] = [[(Detach 1 4, Ret (OVal (Some 144))); (Attach 1 3 144, Ret OUnit)]; [(Detach 1 4, Ret (OVal None))]] /\
    concat (imap (fun i cl => underway 1 (follow i (enter cl) sched (start (after sample) race_cs)).2) race_cs) = [].
Proof.
  split; [|split; [vm_compute; reflexivity|]].
  - assert (forall id to, calls_only (pass_on id to) /\ no_in_place (pass_on id to)) as Hp.
    { intros id to. split; (split; [done|]); intros [[| | | | |[v|]| | | | |]| | |]; done. }
    apply Forall_cons. split; [apply Hp|]. apply Forall_cons. split; [apply Hp|]. by apply Forall_nil.
  - assert (exists s, s = (robin 1000 0 (start (after sample) race_cs)).2) as [s E] by by eexists. vm_compute in E.
    exists s. rewrite E. split; [vm_compute; done|]. split; [vm_compute; done|]. split; [done|]. split; [vm_compute; reflexivity|]. split; vm_compute; reflexivity.
Qed.
(** Two threads detach the same component and keep it. *)
Definition take_cs : list (client nat) := [Call (Detach 1 4) (fun _ => Done); Call (Detach 1 4) (fun _ => Done)].
Example C52_one_winner_case : Forall (fun cl => calls_only cl /\ no_in_place cl) take_cs /\ NoDup [144; 15; 33] /\
  exists sched, runs sched (start (after sample) take_cs) = true /\
  stores (cf_world (at_end sched (start (after sample) take_cs))) 1 [15; 33] /\
  144 ∉ concat (imap (fun i _ => all_given 1 (got sample take_cs sched i)) take_cs) /\
  144 ∉ concat (imap (fun i cl => underway 1 (follow i (enter cl) sched (start (after sample) take_cs)).2) take_cs) /\
  144 ∈ all_returned 1 (got sample take_cs sched 0) /\ all_returned 1 (got sample take_cs sched 1) = [] /\ length (got sample take_cs sched 1) = 1.
Proof.
  split; [|split; [by apply (bool_decide_unpack _)|]].
  - apply Forall_cons. split; [done|]. apply Forall_cons. split; [done|]. by apply Forall_nil.
  - assert (exists s, s = (robin 1000 0 (start (after sample) take_cs)).2) as [s E] by by eexists. vm_compute in E.
    exists s. rewrite E. split; [vm_compute; done|]. split; [vm_compute; reflexivity|].
    split; [apply (bool_decide_unpack _); vm_compute; done|]. split; [apply (bool_decide_unpack _); vm_compute; done|].
    split; [apply (bool_decide_unpack _); vm_compute; done|]. split; vm_compute; reflexivity.
Qed.

(** C42: create_entities on a machine with 64-bit numbers and finite memory. *)
From stdpp Require Import prelude list gmap numbers.
From Verif Require Import Base Api ModelSparse ModelEntity ModelGroup ModelWorld ModelQuery ModelStep Spec History
  ModelOverflow ProofEntity ProofWorld ProofMain ProofHistory ProofHistory2 PropEntity Rules.

Section over.
Context {V : Type}.
Implicit Types (ops : list (op V)) (n lo hi : N) (mc : machine).

Lemma add_ok {S} mc a b : (a + b < word)%N -> add_usize (S := S) mc a b = ret (a + b)%N.
Proof. intros H. unfold add_usize. destruct (N.ltb_spec (a + b) word); [done|lia]. Qed.
Lemma add_over {S} mc a b : (word <= a + b)%N -> (a < word)%N -> (b < word)%N ->
  add_usize (S := S) mc a b = if release mc then ret (a + b - word)%N else panic.
Proof.
  intros H Ha Hb. unfold add_usize. destruct (N.ltb_spec (a + b) word); [lia|]. destruct (release mc); [|done]. f_equal.
  rewrite <- (N.mod_small (a + b - word) word) by lia. replace (a + b)%N with (a + b - word + 1 * word)%N at 1 by lia. by rewrite N.mod_add.
Qed.

(** the manager as the machine runs it, when nothing overflows *)
Lemma on_small mc n e : (N.of_nat (length (flags e)) + n < word)%N -> (N.of_nat (length (ents e)) + n < word)%N ->
  flags e <> [] ->
  (N.of_nat (length (flags e)) + n <= room mc)%N -> (N.of_nat (length (ents e)) + n <= room mc)%N ->
  em_allocate_n_on mc n e = (Ret (N.of_nat (length (flags e)), (N.of_nat (length (flags e)) + n)%N), (em_allocate_n (N.to_nat n) e).2).
Proof.
  intros H1 H2 H0 H3 H4. unfold em_allocate_n_on. unfold bind at 1, get at 1. rewrite !add_ok by done. cbn [bind ret]. unfold bind, ret, put, get. cbn [fst snd flags ents].
  unfold pushes_fit, pushed, pushes. set (f := N.of_nat (length (flags e))) in *. set (k := N.of_nat (length (ents e))) in *.
  replace (k + n - k)%N with n by lia. replace (f + n - f)%N with n by lia.
  destruct (N.leb_spec n (room mc - f)); [|lia]. destruct (N.leb_spec n (room mc - k)); [|lia]. cbn [flags ents].
  unfold new_unchecked. assert (f <> 0)%N by (unfold f; destruct (flags e); [done|simpl; lia]).
  destruct (N.eqb_spec f 0); [done|]. destruct (N.eqb_spec (f + n) 0); [lia|]. rewrite !N.min_l by lia.
  unfold ret. f_equal. unfold em_allocate_n, bind, get, put, ret. simpl. unfold f. by rewrite Nat2N.id.
Qed.
(** when memory does not suffice *)
Lemma on_full mc n e : (N.of_nat (length (flags e)) + n < word)%N -> (N.of_nat (length (ents e)) + n < word)%N ->
  (0 < n)%N -> (room mc < N.of_nat (length (flags e)) + n)%N -> (em_allocate_n_on mc n e).1 = Panic.
Proof.
  intros H1 H2 H0 H3. unfold em_allocate_n_on. unfold bind at 1, get at 1. rewrite !add_ok by done. cbn [bind ret]. unfold bind, ret, put, get. cbn [fst snd flags ents].
  unfold pushes_fit at 1, pushes. set (f := N.of_nat (length (flags e))) in *. set (k := N.of_nat (length (ents e))) in *.
  replace (k + n - k)%N with n by lia. destruct (N.leb_spec n (room mc - f)); [lia|done].
Qed.
(** when the number of ids overflows, but not that of entities *)
Lemma on_between mc n e : (n < word)%N -> (word <= N.of_nat (length (flags e)) + n)%N -> (N.of_nat (length (ents e)) + n < word)%N ->
  (length (flags e) <> 0) -> (N.of_nat (length (flags e)) <= room mc)%N -> (room mc < word)%N ->
  (em_allocate_n_on mc n e).1 = Panic.
Proof.
  intros H1 H2 H3 H4 H5 H6. unfold em_allocate_n_on. unfold bind at 1, get at 1. rewrite add_over by lia. rewrite add_ok by done.
  destruct (release mc); [|done]. cbn [bind ret]. unfold bind, ret, put, get. cbn [fst snd flags ents].
  unfold pushes_fit at 1, pushes. set (f := N.of_nat (length (flags e))) in *. set (k := N.of_nat (length (ents e))) in *.
  replace (k + n - k)%N with n by lia. destruct (N.leb_spec n (room mc - f)); [lia|done].
Qed.
(** when both overflow *)
Lemma on_both mc n e : (n < word)%N -> (word <= N.of_nat (length (flags e)) + n)%N -> (word <= N.of_nat (length (ents e)) + n)%N ->
  (length (ents e) < length (flags e)) -> (N.of_nat (length (flags e)) <= room mc)%N -> (room mc < word)%N ->
  em_allocate_n_on mc n e = if release mc then (Ret (N.of_nat (length (flags e)), N.of_nat (length (flags e)) + n - word)%N, e) else (Panic, e).
Proof.
  intros H1 H2 H3 H4 H5 H6. unfold em_allocate_n_on. unfold bind at 1, get at 1. rewrite !add_over by lia.
  destruct (release mc); [|done]. cbn [bind ret]. unfold bind, ret, put, get. cbn [fst snd flags ents].
  unfold pushes_fit, pushed, pushes. set (f := N.of_nat (length (flags e))) in *. set (k := N.of_nat (length (ents e))) in *.
  replace (k + n - word - k)%N with 0%N by lia. replace (f + n - word - f)%N with 0%N by lia.
  destruct (N.leb_spec 0 (room mc - f)); [|lia]. destruct (N.leb_spec 0 (room mc - k)); [|lia]. cbn [flags ents].
  unfold new_unchecked. destruct (N.eqb_spec f 0); [lia|]. destruct (N.eqb_spec (f + n - word) 0); [lia|]. rewrite !N.min_0_l. simpl. rewrite !app_nil_r. by destruct e.
Qed.

(** ** Histories *)

(** the machine can hold the world: the id table is in its memory *)
Definition holds mc ops : Prop := (N.of_nat (S (size (handed (seen ops)))) <= room mc < word)%N.

Lemma sizes_after ops : rules ops ->
  length (flags (w_em (after ops))) = S (size (handed (seen ops))) /\ length (ents (w_em (after ops))) = size (alive (seen ops)) /\
  size (alive (seen ops)) <= size (handed (seen ops)).
Proof.
  intros L. destruct (reached ops L) as [HR HA]. pose proof (R_em _ _ HR) as He. rewrite (handed_size ops L).
  split; [apply (er_len _ _ _ He)|].
  assert (alive (seen ops) = list_to_set (ents (w_em (after ops)))) as Ea.
  { apply set_eq. intros id. rewrite (ag_alive _ _ HA), elem_of_list_to_set. unfold live, allocated. pose proof (er_elem _ _ _ id He) as E.
    split; [intros [H1 H2]; apply E in H1 as [H1|H1]; done|]. intros H. split; [by apply E; left|]. intros H2. by apply (er_disj _ _ _ id He). }
  assert (NoDup (ents (w_em (after ops)))) as Nd by (by apply er_nodup, NoDup_app in He as (Nd & _)).
  rewrite Ea, size_list_to_set by done. split; [done|].
  pose proof (er_perm _ _ _ He) as P. apply Permutation_length in P. rewrite app_length, seq_length in P. lia.
Qed.

(** ** C42 *)

(** what create_entities(n) is to answer: the [n] ids after all those handed
    out before *)
Definition exact ops n (r : N * N) : Prop :=
  r.1 = N.of_nat (S (size (handed (seen ops)))) /\ r.2 = (r.1 + n)%N /\
  (forall id, (r.1 <= N.of_nat id < r.2)%N -> id <> 0 /\ id ∉ handed (seen ops)).
Lemma exact_ok ops n r : rules ops -> r.1 = N.of_nat (S (size (handed (seen ops)))) -> r.2 = (r.1 + n)%N -> exact ops n r.
Proof.
  intros L H1 H2. split; [done|]. split; [done|]. intros id Hid. split; [lia|]. intros Hh.
  destruct (reached ops L) as [_ HA]. apply (ag_handed _ _ HA) in Hh. unfold allocated in Hh. rewrite <- (handed_size ops L) in Hh. lia.
Qed.

(** In memory: every build answers exactly, and does what the model over
    unbounded numbers (that of the other theorems) says. *)
Theorem C42_in_memory ops mc n : rules ops -> (N.of_nat (S (size (handed (seen ops)))) + n <= room mc < word)%N ->
  exists r, create_entities_on mc n (after ops) = (Ret r, (step (CreateEntities (N.to_nat n)) (after ops)).2) /\
    answer ops (CreateEntities (N.to_nat n)) = Ret (ORange (N.to_nat r.1) (N.to_nat r.2)) /\ exact ops n r.
Proof.
  intros L [H1 H2]. destruct (sizes_after ops L) as (E1 & E2 & E3).
  exists (N.of_nat (S (size (handed (seen ops)))), N.of_nat (S (size (handed (seen ops)))) + n)%N.
  split; [|split; [|by apply exact_ok]].
  - unfold create_entities_on, on_em. rewrite on_small; rewrite ?E1, ?E2; try lia; [|intros E; by rewrite E in E1].
    f_equal.
  - unfold answer. cbn [step]. unfold fmapM, create_entities, on_em, em_allocate_n, bind, get, put, ret. cbn [fst snd].
    rewrite E1. do 2 f_equal; lia.
Qed.

(** A debug build answers exactly or panics, for every [n : usize]. *)
Theorem C42_debug ops mc n : rules ops -> release mc = false -> holds mc ops -> (n < word)%N ->
  match (create_entities_on mc n (after ops)).1 with
  | Ret r => exact ops n r
  | Panic => (room mc < N.of_nat (S (size (handed (seen ops)))) + n)%N
  | _ => False
  end.
Proof.
  intros L Hr [H1 H2] Hn. destruct (sizes_after ops L) as (E1 & E2 & E3).
  destruct (N.le_gt_cases (N.of_nat (S (size (handed (seen ops)))) + n) (room mc)) as [Hm|Hm].
  - destruct (C42_in_memory ops mc n L) as (r & -> & _ & Hx); [done|exact Hx].
  - assert ((create_entities_on mc n (after ops)).1 = (em_allocate_n_on mc n (w_em (after ops))).1) as ->
      by (unfold create_entities_on, on_em; by destruct (em_allocate_n_on _ _ _)).
    destruct (N.lt_ge_cases (N.of_nat (S (size (handed (seen ops)))) + n) word) as [Hw|Hw].
    + rewrite on_full; rewrite ?E1, ?E2; try done; lia.
    + destruct (N.lt_ge_cases (N.of_nat (size (alive (seen ops))) + n) word) as [Hv|Hv].
      * rewrite on_between; rewrite ?E1, ?E2; try done; lia.
      * rewrite on_both; rewrite ?E1, ?E2; try lia. by rewrite Hr.
Qed.

(** A release build answers exactly or panics if fewer than
    [2^64 - (entities alive)] ids are asked for ... *)
Theorem C42_release_partial ops mc n : rules ops -> release mc = true -> holds mc ops ->
  (N.of_nat (size (alive (seen ops))) + n < word)%N ->
  match (create_entities_on mc n (after ops)).1 with
  | Ret r => exact ops n r
  | Panic => (room mc < N.of_nat (S (size (handed (seen ops)))) + n)%N
  | _ => False
  end.
Proof.
  intros L Hr [H1 H2] Hv. destruct (sizes_after ops L) as (E1 & E2 & E3).
  destruct (N.le_gt_cases (N.of_nat (S (size (handed (seen ops)))) + n) (room mc)) as [Hm|Hm].
  - destruct (C42_in_memory ops mc n L) as (r & -> & _ & Hx); [done|exact Hx].
  - assert ((create_entities_on mc n (after ops)).1 = (em_allocate_n_on mc n (w_em (after ops))).1) as ->
      by (unfold create_entities_on, on_em; by destruct (em_allocate_n_on _ _ _)).
    destruct (N.lt_ge_cases (N.of_nat (S (size (handed (seen ops)))) + n) word) as [Hw|Hw].
    + rewrite on_full; rewrite ?E1, ?E2; try done; lia.
    + rewrite on_between; rewrite ?E1, ?E2; try done; lia.
Qed.
(** ... and otherwise answers a range that ends before it starts, without an
    error and without adding an entity. *)
Theorem C42_release_wraps ops mc n : rules ops -> release mc = true -> holds mc ops -> (n < word)%N ->
  (word <= N.of_nat (size (alive (seen ops))) + n)%N ->
  exists lo hi, create_entities_on mc n (after ops) = (Ret (lo, hi), after ops) /\ (0 < hi < lo)%N /\ ~ exact ops n (lo, hi).
Proof.
  intros L Hr [H1 H2] Hn Hv. destruct (sizes_after ops L) as (E1 & E2 & E3).
  exists (N.of_nat (S (size (handed (seen ops)))), N.of_nat (S (size (handed (seen ops)))) + n - word)%N.1,
    (N.of_nat (S (size (handed (seen ops)))), N.of_nat (S (size (handed (seen ops)))) + n - word)%N.2. cbn [fst snd].
  split; [|split; [lia|unfold exact; simpl; lia]].
  unfold create_entities_on, on_em. rewrite on_both; rewrite ?E1, ?E2; try lia. rewrite Hr. f_equal. by destruct (after ops).
Qed.
End over.

(** ** Cases *)

(** a machine with 2^59 slots for ids (16 bytes each) *)
Definition pc (release : bool) : machine := Machine release (2 ^ 59)%N.

(** C42 is false of release builds: with one entity alive,
    create_entities(usize::MAX) answers the range 2..1. *)
Theorem C42_release_refuted : exists (ops : list (op nat)) n, rules ops /\ holds (pc true) ops /\ (n < word)%N /\
  (create_entities_on (pc true) n (after ops)).1 = Ret (2, 1)%N /\ ~ exact ops n (2, 1)%N.
Proof.
  exists [CreateEntity], (word - 1)%N. split; [by check_rules|]. split; [done|]. split; [done|]. split; [by vm_compute|].
  unfold exact. simpl. intros (_ & H & _). by vm_compute in H.
Qed.
Example C42_case : rules [CreateEntity (V := nat); CreateEntities 3] /\ holds (pc false) [CreateEntity (V := nat); CreateEntities 3] /\
  (create_entities_on (V := nat) (pc true) 4 (after [CreateEntity; CreateEntities 3])).1 = Ret (5, 9)%N /\
  (create_entities_on (V := nat) (pc false) (word - 1) (after [CreateEntity; CreateEntities 3])).1 = Panic.
Proof. split; [by check_rules|]. split; [done|]. split; by vm_compute. Qed.

(** C45: every call comes to an end.  A call has the outcome [Block] if it
    waits for a lock its own thread has, or if a loop has not ended within
    its bound; so a call that does not answer [Block] ends. *)
From stdpp Require Import prelude list gmap.
From Verif Require Import Base Api ModelSparse ModelEntity ModelGroup ModelWorld ModelQuery ModelStep Spec History
  ProofHistory2 ProofTerm PropWorld PropGroup.

Section c45.
Context {V : Type}.
Implicit Types (w : world V) (q : query).

Lemma clash_app l1 l2 held : clash held (l1 ++ l2) = clash held l1 || clash (rev l1 ++ held) l2.
Proof.
  revert held. induction l1 as [|x l1 IH]; intros held; simpl; [done|]. rewrite IH, <- app_assoc. simpl. by rewrite orb_assoc.
Qed.
Lemma open_ends w q : forall held, match query_open w q held with
  | (Ret J, held') => qterm J /\ held' = rev (q_refs q) ++ held
  | (Block, _) => clash held (q_refs q) = true
  | _ => True
  end.
Proof.
  assert (forall t m held, match lock t m held with
    | (Ret _, held') => held' = (t, m) :: held
    | (Block, _) => clash held [(t, m)] = true
    | _ => False end) as HL.
  { intros t m held. unfold lock, bind, get, put. unfold lock_conflict. simpl. destruct (existsb _ held); [by rewrite ?orb_true_l|done]. }
  assert (forall t held, match downcast w t held with (Ret _, held') => held' = held | (Block, _) => False | _ => True end) as HD.
  { intros t held. unfold downcast. destruct (w_comps w !! t) as [st|]; [|done]. by destruct (_ =? _). }
  induction q as [m t|a IHa b IHb|a IHa b IHb c IHc|a IHa b IHb c IHc d IHd|a IHa b IHb c IHc d IHd e IHe|a IHa b IHb|a IHa b IHb|k ma mb a b];
    intros held; cbn [query_open q_refs].
  - unfold bind, assert. destruct (has_registered t w); [|done]. cbn [ret]. specialize (HL t m held). unfold ret at 1.
    destruct (lock t m held) as [[[]| | |] h1]; try done. subst h1. specialize (HD t ((t, m) :: held)).
    destruct (downcast w t _) as [[[]| | |] h1]; try done. subst h1. split; [apply term_ref|done].
  - unfold bind. specialize (IHa held). destruct (query_open w a held) as [[A| | |] h1]; try done; [|by rewrite clash_app, IHa].
    destruct IHa as [TA ->]. specialize (IHb (rev (q_refs a) ++ held)). destruct (query_open w b _) as [[B| | |] h2]; try done; [|by rewrite clash_app, IHb, orb_true_r].
    destruct IHb as [TB ->]. split; [by apply term_with2|]. by rewrite rev_app_distr, app_assoc.
  - unfold bind. specialize (IHa held). destruct (query_open w a held) as [[A| | |] h1]; try done; [|by rewrite clash_app, IHa].
    destruct IHa as [TA ->]. specialize (IHb (rev (q_refs a) ++ held)). destruct (query_open w b _) as [[B| | |] h2]; try done; [|by rewrite !clash_app, IHb, orb_true_r].
    destruct IHb as [TB ->]. specialize (IHc (rev (q_refs b) ++ rev (q_refs a) ++ held)).
    destruct (query_open w c _) as [[C| | |] h3]; try done; [|by rewrite !clash_app, IHc, !orb_true_r].
    destruct IHc as [TC ->]. split; [by apply term_with3|]. by rewrite !rev_app_distr, <- !app_assoc.
  - unfold bind. specialize (IHa held). destruct (query_open w a held) as [[A| | |] h1]; try done; [|by rewrite clash_app, IHa].
    destruct IHa as [TA ->]. specialize (IHb (rev (q_refs a) ++ held)). destruct (query_open w b _) as [[B| | |] h2]; try done; [|by rewrite !clash_app, IHb, orb_true_r].
    destruct IHb as [TB ->]. specialize (IHc (rev (q_refs b) ++ rev (q_refs a) ++ held)).
    destruct (query_open w c _) as [[C| | |] h3]; try done; [|by rewrite !clash_app, IHc, !orb_true_r].
    destruct IHc as [TC ->]. specialize (IHd (rev (q_refs c) ++ rev (q_refs b) ++ rev (q_refs a) ++ held)).
    destruct (query_open w d _) as [[D| | |] h4]; try done; [|by rewrite !clash_app, IHd, !orb_true_r].
    destruct IHd as [TD ->]. split; [by apply term_with4|]. by rewrite !rev_app_distr, <- !app_assoc.
  - unfold bind. specialize (IHa held). destruct (query_open w a held) as [[A| | |] h1]; try done; [|by rewrite clash_app, IHa].
    destruct IHa as [TA ->]. specialize (IHb (rev (q_refs a) ++ held)). destruct (query_open w b _) as [[B| | |] h2]; try done; [|by rewrite !clash_app, IHb, orb_true_r].
    destruct IHb as [TB ->]. specialize (IHc (rev (q_refs b) ++ rev (q_refs a) ++ held)).
    destruct (query_open w c _) as [[C| | |] h3]; try done; [|by rewrite !clash_app, IHc, !orb_true_r].
    destruct IHc as [TC ->]. specialize (IHd (rev (q_refs c) ++ rev (q_refs b) ++ rev (q_refs a) ++ held)).
    destruct (query_open w d _) as [[D| | |] h4]; try done; [|by rewrite !clash_app, IHd, !orb_true_r].
    destruct IHd as [TD ->]. specialize (IHe (rev (q_refs d) ++ rev (q_refs c) ++ rev (q_refs b) ++ rev (q_refs a) ++ held)).
    destruct (query_open w e _) as [[E| | |] h5]; try done; [|by rewrite !clash_app, IHe, !orb_true_r].
    destruct IHe as [TE ->]. split; [by apply term_with5|]. by rewrite !rev_app_distr, <- !app_assoc.
  - unfold bind. specialize (IHa held). destruct (query_open w a held) as [[A| | |] h1]; try done; [|by rewrite clash_app, IHa].
    destruct IHa as [TA ->]. specialize (IHb (rev (q_refs a) ++ held)). destruct (query_open w b _) as [[B| | |] h2]; try done; [|by rewrite clash_app, IHb, orb_true_r].
    destruct IHb as [TB ->]. split; [by apply term_left|]. by rewrite rev_app_distr, app_assoc.
  - unfold bind. specialize (IHa held). destruct (query_open w a held) as [[A| | |] h1]; try done; [|by rewrite clash_app, IHa].
    destruct IHa as [TA ->]. specialize (IHb (rev (q_refs a) ++ held)). destruct (query_open w b _) as [[B| | |] h2]; try done; [|by rewrite clash_app, IHb, orb_true_r].
    destruct IHb as [TB ->]. split; [by apply term_right|]. by rewrite rev_app_distr, app_assoc.
  - unfold bind, assert. destruct (has_registered a w && has_registered b w); [|done]. unfold ret at 1.
    pose proof (HL a ma held) as H1. destruct (lock a ma held) as [[[]| | |] h1]; try done.
    2: { change [(a, ma); (b, mb)] with ([(a, ma)] ++ [(b, mb)]). by rewrite clash_app, H1. }
    subst h1. pose proof (HL b mb ((a, ma) :: held)) as H2. destruct (lock b mb _) as [[[]| | |] h1]; try done.
    2: { change [(a, ma); (b, mb)] with ([(a, ma)] ++ [(b, mb)]). rewrite clash_app. simpl rev. simpl app. by rewrite H2, orb_true_r. }
    subst h1. pose proof (HD a ((b, mb) :: (a, ma) :: held)) as H3. destruct (downcast w a _) as [[[]| | |] h1]; try done. subst h1.
    pose proof (HD b ((b, mb) :: (a, ma) :: held)) as H3. destruct (downcast w b _) as [[[]| | |] h1]; try done. subst h1.
    destruct (has_group (new_group k a b) w); [|done]. unfold ret at 1. destruct (find_group _ _ _) as [gi|]; [|done]. cbn [unwrap]. unfold ret at 1.
    destruct (w_groups w !! gi) as [g|]; [|done]. cbn [unwrap]. unfold ret at 1.
    destruct k; [split; [apply term_full|done]|split; [apply term_part|done]|].
    destruct g; try done. split; [apply term_non|done].
Qed.

Lemma calls_end J cs w st : qterm J -> (run_calls (V := V) J cs (w, st)).1 <> Block.
Proof.
  intros HJ. revert w st. induction cs as [|c cs IH]; intros w st; cbn [run_calls]; [done|]. unfold bind.
  pose proof (call_term J c w st HJ) as Hc. destruct (run_call J c (w, st)) as [[x| | |] [w1 st1]]; try done.
  specialize (IH w1 st1). by destruct (run_calls J cs (w1, st1)) as [[]].
Qed.

(** Group methods. *)
Lemma nb_panic {S A} : nblock (@panic S A).
Proof. done. Qed.
Lemma nb_assert {S} b : nblock (@assert S b).
Proof. by destruct b. Qed.
Lemma nb_a {D A} (m : M (sset V) A) : nblock m -> nblock (@on_a V D A m).
Proof. intros H c. specialize (H (gc_a c)). unfold on_a. by destruct (m (gc_a c)). Qed.
Lemma nb_b {D A} (m : M (sset V) A) : nblock m -> nblock (@on_b V D A m).
Proof. intros H c. specialize (H (gc_b c)). unfold on_b. by destruct (m (gc_b c)). Qed.
Lemma nb_d {D A} (m : M D A) : nblock m -> nblock (@on_d V D A m).
Proof. intros H c. specialize (H (gc_d c)). unfold on_d. by destruct (m (gc_d c)). Qed.
Lemma nb_nd {A} (m : M (sset (nat * nat)) A) : nblock m -> nblock (on_nd m).
Proof. intros H c. specialize (H (nd_set c)). unfold on_nd. by destruct (m (nd_set c)). Qed.
Lemma nb_range {S} (f : nat -> M S unit) n : forall i, (forall i, nblock (f i)) -> nblock (for_range i n f).
Proof. induction n as [|n IH]; intros i H; [apply nb_ret|]. cbn [for_range]. apply nb_bind; [done|]. intros _. by apply IH. Qed.
Lemma nb_each {S A} (l : list A) (f : A -> M S unit) : (forall x, x ∈ l -> nblock (f x)) -> nblock (for_each l f).
Proof.
  induction l as [|x l IH]; intros H; [apply nb_ret|]. cbn [for_each]. apply nb_bind; [apply H; left|]. intros _. apply IH. intros y Hy. apply H. by right.
Qed.
Lemma nb_full_len n : nblock (full_set_len n). Proof. done. Qed.
Lemma nb_part_len n : nblock (part_set_len n). Proof. done. Qed.
Ltac nb := repeat first
  [ progress intros
  | match goal with
    | |- nblock (ret _) => apply nb_ret
    | |- nblock ub => apply nb_ub
    | |- nblock panic => apply nb_panic
    | |- nblock (assert _) => apply nb_assert
    | |- nblock get => apply nb_get
    | |- nblock (put _) => apply nb_put
    | |- nblock (bind _ _) => apply nb_bind
    | |- nblock (unwrap _) => apply nb_unwrap
    | |- nblock (on_a _) => apply nb_a
    | |- nblock (on_b _) => apply nb_b
    | |- nblock (on_d _) => apply nb_d
    | |- nblock (on_nd _) => apply nb_nd
    | |- nblock (full_set_len _) => apply nb_full_len
    | |- nblock (part_set_len _) => apply nb_part_len
    | |- nblock (for_range _ _ _) => apply nb_range
    | |- nblock (lift _) => apply nb_lift
    | |- nblock (if ?b then _ else _) => destruct b
    | |- nblock (match ?b with _ => _ end) => destruct b
    end ].
Lemma nb_add {U} e (v : U) : nblock (ss_add e v). Proof. unfold ss_add. nb. Qed.
Lemma nb_batch {U} es (vs : list U) : nblock (ss_add_batch es vs). Proof. unfold ss_add_batch. nb. Qed.
Lemma nb_remove {U} e : nblock (@ss_remove U e). Proof. unfold ss_remove. nb. Qed.
Lemma nb_cs {U} e : nblock (@cs_remove U e). Proof. unfold cs_remove. apply nb_bind; [apply nb_remove|]. nb. Qed.
Lemma nb_swap {U} i j : nblock (@ss_swap_by_index U i j). Proof. unfold ss_swap_by_index. nb. Qed.
Lemma nb_fin d (a b : sset V) id : full_in_group d a b id <> Block.
Proof. unfold full_in_group. destruct (negb _); [done|]. by destruct (ss_get_index a id), (ss_get_index b id). Qed.
Lemma nb_pin d (a b : sset V) id : part_in_group d a b id <> Block.
Proof. unfold part_in_group. destruct (negb _); [done|]. by destruct (ss_get_index a id). Qed.
Lemma nb_nin d (a b : sset V) id : non_in_group d a b id <> Block.
Proof. unfold non_in_group. by destruct (negb _). Qed.
Ltac nbg := repeat (nb; try first [apply nb_swap|apply nb_add|apply nb_remove|apply nb_cs|apply nb_fin|apply nb_pin|apply nb_nin]).
Lemma nb_full_add id : nblock (full_add (V := V) id). Proof. unfold full_add. nbg. Qed.
Lemma nb_full_remove id : nblock (full_remove (V := V) id). Proof. unfold full_remove. nbg. Qed.
Lemma nb_full_make : nblock (full_make (V := V)). Proof. unfold full_make. nbg. Qed.
Lemma nb_part_add id : nblock (part_add (V := V) id). Proof. unfold part_add. nbg. Qed.
Lemma nb_part_remove id : nblock (part_remove (V := V) id). Proof. unfold part_remove. nbg. Qed.
Lemma nb_part_make : nblock (part_make (V := V)). Proof. unfold part_make. nbg. Qed.
Lemma nb_non_add id : nblock (non_add (V := V) id). Proof. unfold non_add. nbg. Qed.
Lemma nb_non_remove id : nblock (non_remove (V := V) id). Proof. unfold non_remove. nbg. Qed.
Lemma nb_non_make : nblock (non_make (V := V)). Proof. unfold non_make. nbg. Qed.

(** Not blocking on the worlds whose groups are [gs] (and leaving them). *)
Definition nbw {A} (gs : list (gkind * nat * nat)) (m : M (world V) A) : Prop :=
  forall w, groups_in w = gs -> (m w).1 <> Block /\ groups_in (m w).2 = gs.
Lemma nbw_ret {A} gs (a : A) : nbw gs (ret a). Proof. by intros w H. Qed.
Lemma nbw_bind {A B} gs (m : M (world V) A) (k : A -> M (world V) B) : nbw gs m -> (forall a, nbw gs (k a)) -> nbw gs (bind m k).
Proof.
  intros H1 H2 w Hw. unfold bind. destruct (H1 w Hw) as [Ha Hb]. destruct (m w) as [[a| | |] w1]; try done. by apply H2.
Qed.
Lemma nbw_get {B} gs (k : world V -> M (world V) B) : (forall w0, groups_in w0 = gs -> nbw gs (k w0)) -> nbw gs (bind get k).
Proof. intros H w Hw. unfold bind, get. by apply H. Qed.
Lemma nbw_lift {A} gs (o : outcome A) : o <> Block -> nbw gs (lift o). Proof. by intros H w Hw. Qed.
Lemma nbw_assert gs b : nbw gs (assert b). Proof. by destruct b. Qed.
Lemma nbw_ub {A} gs : nbw (A := A) gs ub. Proof. by intros w H. Qed.
Lemma nbw_panic {A} gs : nbw (A := A) gs panic. Proof. by intros w H. Qed.
Lemma nbw_storage {A} gs t (m : M (sset V) A) : nblock m -> nbw gs (storage_mut t m).
Proof.
  intros H w Hw. unfold storage_mut. destruct (w_comps w !! t) as [st|]; [|done]. destruct (_ =? _); [|done].
  specialize (H (st_set st)). by destruct (m (st_set st)).
Qed.
Lemma nbw_dyn {A} gs t (m : M (sset V) A) : nblock m -> nbw gs (dyn_mut t m).
Proof. intros H w Hw. unfold dyn_mut. destruct (w_comps w !! t) as [st|]; [|done]. specialize (H (st_set st)). by destruct (m (st_set st)). Qed.
Lemma nbw_em {A} gs (m : M em A) : nblock m -> nbw gs (on_em m).
Proof. intros H w Hw. unfold on_em. specialize (H (w_em w)). by destruct (m (w_em w)). Qed.
Lemma nbw_each {A} gs (l : list A) f : (forall x, x ∈ l -> nbw gs (f x)) -> nbw gs (for_each l f).
Proof.
  induction l as [|x l IH]; intros H; [apply nbw_ret|]. cbn [for_each]. apply nbw_bind; [apply H; left|]. intros _. apply IH. intros y Hy. apply H. by right.
Qed.
(** A group whose types are the same one and which owns it: src locks the
    storage twice. *)
Definition twisted (g : gkind * nat * nat) : Prop := g.1.2 = g.2 /\ g.1.1 <> KNon.
(** the methods leave kind and types of their group *)
Definition tidy_d {D} (key : D -> nat * nat) (m : M (gctx V D) unit) : Prop := forall c, key (gc_d (m c).2) = key (gc_d c).
Lemma nbw_group gs i ff fp fn :
  nblock ff -> nblock fp -> nblock fn ->
  tidy_d (fun d => (fd_a d, fd_b d)) ff -> tidy_d (fun d => (pd_a d, pd_b d)) fp -> tidy_d (fun d => (nd_a d, nd_b d)) fn ->
  (forall g, gs !! i = Some g -> ~ twisted g) -> nbw gs (run_group_at i ff fp fn).
Proof.
  intros H1 H2 H3 T1 T2 T3 Hg w Hw. unfold run_group_at. destruct (w_groups w !! i) as [[d|d|d]|] eqn:E; [..|done].
  - destruct (w_comps w !! fd_a d) as [sa|]; [|done]. destruct (fd_a d =? fd_b d) eqn:Eq.
    + apply Nat.eqb_eq in Eq. exfalso. apply (Hg (KFull, fd_a d, fd_b d)); [|done]. rewrite <- Hw. unfold groups_in. by rewrite list_lookup_fmap, E.
    + destruct (w_comps w !! fd_b d) as [sb|]; [|done]. specialize (H1 (GC d (st_set sa) (st_set sb))). specialize (T1 (GC d (st_set sa) (st_set sb))).
      destruct (ff _) as [o c]. simpl in *. split; [done|]. rewrite <- Hw. unfold groups_in. simpl. rewrite list_fmap_insert. apply list_insert_id.
      rewrite list_lookup_fmap, E. simpl. injection T1 as -> ->. done.
  - destruct (w_comps w !! pd_a d) as [sa|]; [|done]. destruct (pd_a d =? pd_b d) eqn:Eq.
    + apply Nat.eqb_eq in Eq. exfalso. apply (Hg (KPart, pd_a d, pd_b d)); [|done]. rewrite <- Hw. unfold groups_in. by rewrite list_lookup_fmap, E.
    + destruct (w_comps w !! pd_b d) as [sb|]; [|done]. specialize (H2 (GC d (st_set sa) (st_set sb))). specialize (T2 (GC d (st_set sa) (st_set sb))).
      destruct (fp _) as [o c]. simpl in *. split; [done|]. rewrite <- Hw. unfold groups_in. simpl. rewrite list_fmap_insert. apply list_insert_id.
      rewrite list_lookup_fmap, E. simpl. injection T2 as -> ->. done.
  - destruct (w_comps w !! nd_a d) as [sa|]; [|done]. destruct (w_comps w !! nd_b d) as [sb|]; [|done].
    specialize (H3 (GC d (st_set sa) (st_set sb))). specialize (T3 (GC d (st_set sa) (st_set sb))).
    destruct (fn _) as [o c]. simpl in *. split; [done|]. rewrite <- Hw. unfold groups_in. simpl. rewrite list_fmap_insert. apply list_insert_id.
    rewrite list_lookup_fmap, E. simpl. injection T3 as -> ->. done.
Qed.
Lemma groups_with_spec t (gs : list group) : forall n i, i ∈ groups_with t gs n -> exists j g, i = n + j /\ gs !! j = Some g /\ ((g_types g).1 = t \/ (g_types g).2 = t).
Proof.
  induction gs as [|g gs IH]; intros n i; cbn [groups_with]; [by rewrite elem_of_nil|]. destruct (g_types g) as [a b] eqn:Eg.
  assert (i ∈ groups_with t gs (S n) -> exists j g0, i = n + j /\ (g :: gs) !! j = Some g0 /\ ((g_types g0).1 = t \/ (g_types g0).2 = t)) as Hl.
  { intros (j & g0 & -> & Hj & Ht)%IH. exists (S j), g0. split; [lia|done]. }
  destruct ((a =? t) || (b =? t)) eqn:E; [|done]. rewrite elem_of_cons. intros [->|H]; [|by apply Hl].
  exists 0, g. split; [lia|]. split; [done|]. rewrite Eg. apply orb_true_iff in E as [E%Nat.eqb_eq|E%Nat.eqb_eq]; auto.
Qed.
Lemma types_static g : g_types g = ((g_static g).1.2, (g_static g).2).
Proof. by destruct g. Qed.
Lemma tidy_gpres {D} (ta tb : D -> nat) m : gpres ta tb m -> tidy_d (fun d => (ta d, tb d)) m.
Proof. intros H c. destruct (H c) as [-> ->]. done. Qed.
Lemma nb_alloc : nblock em_allocate.
Proof. unfold em_allocate. nb. Qed.
Lemma nb_alloc_n n : nblock (em_allocate_n n).
Proof. unfold em_allocate_n. nb. Qed.
Lemma nb_em_remove id : nblock (em_remove id).
Proof. unfold em_remove. nb. Qed.
Lemma nb_exist id w : exist id w <> Block.
Proof. unfold exist, em_has. repeat (case_match; try done). Qed.
Lemma nb_read t w : components_read t w <> Block.
Proof. unfold components_read. repeat (case_match; try done). Qed.
Lemma nb_unchecked {U} (s : sset U) id : ss_get_unchecked_loc s id <> Block.
Proof. unfold ss_get_unchecked_loc. repeat (case_match; try done). Qed.
Lemma nb_collect w id gs : forall i, collect_in_group w id gs i <> Block.
Proof.
  induction gs as [|g gs IH]; intros i; cbn [collect_in_group]; [done|]. destruct (g_types g) as [a b].
  destruct (w_comps w !! a) as [sa|]; [|done]. destruct (w_comps w !! b) as [sb|]; [|done].
  assert (g_in_group g (st_set sa) (st_set sb) id <> Block) as H by (destruct g; [apply nb_fin|apply nb_pin|apply nb_nin]).
  destruct (g_in_group _ _ _ _); try done. specialize (IH (S i)). by destruct (collect_in_group w id gs (S i)).
Qed.
Lemma collect_spec0 w id gs : forall i l, collect_in_group w id gs i = Ret l -> forall j, j ∈ l -> exists g, gs !! (j - i) = Some g /\ i <= j.
Proof.
  induction gs as [|g gs IH]; intros i l; cbn [collect_in_group].
  { intros [= <-] j Hj. by apply elem_of_nil in Hj. }
  destruct (g_types g) as [a b]. destruct (w_comps w !! a) as [sa|]; [|done]. destruct (w_comps w !! b) as [sb|]; [|done].
  destruct (g_in_group _ _ _ _) as [need| | |]; try done. destruct (collect_in_group w id gs (S i)) as [l1| | |] eqn:E; try done. intros [= <-] j Hj.
  assert (j ∈ l1 -> exists g0, (g :: gs) !! (j - i) = Some g0 /\ i <= j) as Hl.
  { intros H. destruct (IH _ _ E j H) as (g0 & H1 & H2). exists g0. replace (j - i) with (S (j - S i)) by lia. split; [done|lia]. }
  destruct need; [|by apply Hl]. apply elem_of_cons in Hj as [->|Hj]; [|by apply Hl]. exists g. rewrite Nat.sub_diag. split; [done|lia].
Qed.

(** ** The statements *)

(** The calls that wait for a lock their own thread has: a query with a
    conflict (C23), an owning group of a type with itself (C34), and attaching,
    detaching or removing in a world that has such a group. *)
Definition waits_for_itself w (o : op V) : Prop :=
  match o with
  | Query q | QueryMut q _ => q_conflict q
  | MakeGroup k a b => k <> KNon /\ a = b
  | Attach t _ _ | Detach t _ => exists g, g ∈ groups_in w /\ twisted g /\ g.2 = t
  | RemoveEntity _ _ => exists g, g ∈ groups_in w /\ twisted g
  | _ => False
  end.

Lemma nbw_groups gs t (f : nat -> M (world V) unit) :
  (forall i g, gs !! i = Some g -> g.1.2 = t \/ g.2 = t -> nbw gs (f i)) ->
  nbw gs (let! w := get in for_each (groups_with t (w_groups w) 0) f).
Proof.
  intros H. apply nbw_get. intros w Hw. apply nbw_each. intros i (j & g & -> & Hj & Ht)%groups_with_spec.
  apply (H _ (g_static g)).
  - rewrite <- Hw. unfold groups_in. simpl. by rewrite list_lookup_fmap, Hj.
  - by rewrite types_static in Ht.
Qed.
Lemma nbw_attach gs t id v : (forall g, g ∈ gs -> twisted g -> g.2 <> t) -> nbw gs (attach_component t id v).
Proof.
  intros H. unfold attach_component. apply nbw_get. intros w0 _. apply nbw_bind; [apply nbw_lift, nb_exist|]. intros b.
  apply nbw_bind; [apply nbw_assert|]. intros _. unfold entity_attach. apply nbw_get. intros w1 _. apply nbw_bind; [apply nbw_assert|].
  intros _. apply nbw_bind; [apply nbw_storage, nb_add|]. intros _. apply nbw_groups. intros i g Hi Ht.
  apply nbw_group; [apply nb_full_add|apply nb_part_add|apply nb_non_add|apply tidy_gpres, gp_full_add|apply tidy_gpres, gp_part_add|apply tidy_gpres, gp_non_add|].
  intros g' Hg'. rewrite Hi in Hg'. injection Hg' as <-. intros Tw. apply (H g); [by eapply elem_of_list_lookup_2|done|].
  destruct Tw as [E _]. destruct Ht; congruence.
Qed.
Lemma nbw_detach gs t id : (forall g, g ∈ gs -> twisted g -> g.2 <> t) -> nbw gs (detach_component (V := V) t id).
Proof.
  intros H. unfold detach_component. apply nbw_get. intros w0 _. apply nbw_bind; [apply nbw_lift, nb_exist|]. intros b.
  apply nbw_bind; [apply nbw_assert|]. intros _. unfold entity_detach. apply nbw_get. intros w1 Hw1. apply nbw_bind; [apply nbw_assert|].
  intros _. apply nbw_bind; [|intros _; apply nbw_storage, nb_remove]. apply nbw_each. intros i (j & g & -> & Hj & Ht)%groups_with_spec.
  apply nbw_group; [apply nb_full_remove|apply nb_part_remove|apply nb_non_remove|apply tidy_gpres, gp_full_remove|apply tidy_gpres, gp_part_remove|apply tidy_gpres, gp_non_remove|].
  intros g' Hg'. rewrite <- Hw1 in Hg'. unfold groups_in in Hg'. simpl in Hg'. rewrite list_lookup_fmap, Hj in Hg'. injection Hg' as <-. intros Tw.
  apply (H (g_static g)); [|done|].
  - rewrite <- Hw1. unfold groups_in. apply elem_of_list_fmap. exists g. split; [done|]. by eapply elem_of_list_lookup_2.
  - rewrite types_static in Ht. destruct Tw as [E _]. simpl in Ht. destruct Ht; congruence.
Qed.
Lemma nbw_remove gs id ord : (forall g, g ∈ gs -> ~ twisted g) -> nbw gs (remove_entity (V := V) id ord).
Proof.
  intros H. unfold remove_entity. apply nbw_get. intros w0 _. apply nbw_bind; [apply nbw_lift, nb_exist|]. intros b.
  apply nbw_bind; [apply nbw_assert|]. intros _. apply nbw_bind; [apply nbw_lift, nb_collect|]. intros l.
  apply nbw_bind.
  - apply nbw_each. intros i _. apply nbw_group.
    + apply nb_bind; [apply nb_full_remove|]. intros _. apply nb_bind; [apply nb_a, nb_cs|]. intros _. apply nb_b, nb_cs.
    + apply nb_bind; [apply nb_part_remove|]. intros _. apply nb_a, nb_cs.
    + apply nb_non_remove.
    + apply tidy_gpres. apply gpres_bind; [apply gp_full_remove|]. intros _. apply gpres_bind; [intros c; apply gpres_on_a|]. intros _ c. apply gpres_on_b.
    + apply tidy_gpres. apply gpres_bind; [apply gp_part_remove|]. intros _ c. apply gpres_on_a.
    + apply tidy_gpres, gp_non_remove.
    + intros g Hg. apply H. by eapply elem_of_list_lookup_2.
  - intros _. apply nbw_get. intros w1 _. apply nbw_bind; [|intros _; apply nbw_em, nb_em_remove].
    apply nbw_each. intros t _. apply nbw_dyn, nb_cs.
Qed.
Lemma nb_make k a b w : k = KNon \/ a <> b -> (make_group k a b w).1 <> Block.
Proof.
  intros H. unfold make_group, bind, get, assert, put. destruct (negb (has_group _ w)); [|done]. destruct (negb (owner_conflict _ w)); [|done]. unfold ret.
  apply (nbw_group (groups_in (set_groups (w_groups w ++ [new_group k a b]) w)));
    [apply nb_full_make|apply nb_part_make|apply nb_non_make|apply tidy_gpres, gp_full_make|apply tidy_gpres, gp_part_make|apply tidy_gpres, gp_non_make| |done].
  intros g. unfold groups_in. simpl. rewrite list_lookup_fmap, lookup_app_r by lia. rewrite Nat.sub_diag. simpl. intros [= <-] [E1 E2].
  rewrite new_group_static in *. simpl in *. destruct H as [H|H]; congruence.
Qed.
Lemma nbw_step gs (m : M (world V) (out V)) w : nbw gs m -> groups_in w = gs -> (m w).1 <> Block.
Proof. intros H Hw. by apply H. Qed.
Lemma fm_block {S A B} (f : A -> B) (m : M S A) s : (fmapM f m s).1 = Block -> (m s).1 = Block.
Proof. unfold fmapM, bind, ret. by destruct (m s) as [[]]. Qed.

(** ** C45 *)

(** In every world (also one no program can reach): a call does not wait
    forever and no loop in it runs forever, unless it is one of the calls
    above. *)
Theorem C45_calls_end w (o : op V) : (step o w).1 = Block -> waits_for_itself w o.
Proof.
  assert (forall t, (forall g, g ∈ groups_in w -> twisted g -> g.2 <> t) \/ exists g, g ∈ groups_in w /\ twisted g /\ g.2 = t) as Hd.
  { intros t. assert (forall g : gkind * nat * nat, Decision (twisted g /\ g.2 = t)) as Dg.
    { intros [[k a] b]. unfold twisted. simpl. destruct (decide (a = b)), (decide (k = KNon)), (decide (b = t)); first [by left|right; naive_solver]. }
    destruct (decide (Exists (fun g => twisted g /\ g.2 = t) (groups_in w))) as [E|E].
    - right. apply Exists_exists in E as (g & H1 & H2 & H3). eauto.
    - left. intros g Hg Tw Ht. apply E, Exists_exists. eauto. }
  assert ((forall g, g ∈ groups_in w -> ~ twisted g) \/ exists g, g ∈ groups_in w /\ twisted g) as Ha.
  { assert (forall g : gkind * nat * nat, Decision (twisted g)) as Dg.
    { intros [[k a] b]. unfold twisted. simpl. destruct (decide (a = b)), (decide (k = KNon)); first [by left|right; naive_solver]. }
    destruct (decide (Exists twisted (groups_in w))) as [E|E].
    - right. apply Exists_exists in E as (g & H1 & H2). eauto.
    - left. intros g Hg Tw. apply E, Exists_exists. eauto. }
  assert (forall A (m : M (world V) A), nbw (groups_in w) m -> (m w).1 <> Block) as Hn by (intros A m Hm; by apply Hm).
  assert (forall t A (f : sset V -> outcome A), (forall s, f s <> Block) -> (via_storage t f w).1 <> Block) as Hv.
  { intros t A f Hf. unfold via_storage, bind, get, lift. pose proof (nb_read t w). destruct (components_read t w) as [[s|]| | |]; try done.
    specialize (Hf s). by destruct (f s). }
  destruct o; cbn [step waits_for_itself]; intros HB; try apply fm_block in HB.
  - exfalso. revert HB. unfold register, bind, get, assert. by destruct (negb _).
  - done.
  - exfalso. revert HB. apply Hn. unfold create_entity. apply nbw_bind; [apply nbw_em, nb_alloc|]. intros i. apply nbw_get. intros w0 _.
    apply nbw_bind; [apply nbw_lift, nb_exist|]. intros [|]; [apply nbw_ret|apply nbw_panic].
  - exfalso. revert HB. apply Hn. apply nbw_em, nb_alloc_n.
  - destruct Ha as [H|H]; [|exact H]. exfalso. revert HB. by apply Hn, nbw_remove.
  - exfalso. by apply (nb_exist id w).
  - destruct (Hd t) as [H|H]; [|exact H]. exfalso. revert HB. by apply Hn, nbw_attach.
  - destruct (Hd t) as [H|H]; [|exact H]. exfalso. revert HB. by apply Hn, nbw_detach.
  - exfalso. revert HB. apply Hn. unfold entities_attach. apply nbw_bind; [apply nbw_assert|]. intros _. apply nbw_storage, nb_batch.
  - exfalso. revert HB. apply Hn. unfold entity_component_read. apply nbw_get. intros w0 _. apply nbw_bind; [apply nbw_lift, nb_read|].
    intros [s|]; [|apply nbw_ret]. destruct (ss_exist s id); [|apply nbw_ret]. apply nbw_bind; [apply nbw_lift, nb_unchecked|]. intros i.
    destruct (sdata s !! i); [apply nbw_ret|apply nbw_ub].
  - exfalso. revert HB. apply Hn. unfold entity_component_write. apply nbw_get. intros w0 _. apply nbw_bind; [apply nbw_lift, nb_read|].
    intros [s|]; [|apply nbw_ret]. destruct (ss_exist s id); [|apply nbw_ret]. apply nbw_bind; [apply nbw_lift, nb_unchecked|]. intros i.
    apply nbw_bind; [apply nbw_storage; nb|]. intros _. apply nbw_ret.
  - exfalso. revert HB. by apply Hv.
  - exfalso. revert HB. by apply Hv.
  - exfalso. revert HB. by apply Hv.
  - exfalso. revert HB. apply Hv. intros s. apply nb_val.
  - exfalso. revert HB. by apply Hv.
  - exfalso. revert HB. apply Hn. unfold storage_get_mut. apply nbw_get. intros w0 _. apply nbw_bind; [apply nbw_lift, nb_read|].
    intros [s|]; [|apply nbw_ret]. apply nbw_bind; [apply nbw_lift, nb_loc|]. intros [i|]; [|apply nbw_ret].
    apply nbw_bind; [apply nbw_storage; nb|]. intros _. apply nbw_ret.
  - exfalso. revert HB. apply Hn. unfold storage_data_set. apply nbw_get. intros w0 _. apply nbw_bind; [apply nbw_lift, nb_read|].
    intros [s|]; [|apply nbw_ret]. apply nbw_bind; [apply nbw_assert|]. intros _.
    apply nbw_bind; [apply nbw_storage; nb|]. intros _. apply nbw_ret.
  - destruct (decide (k = KNon)) as [Hk|Hk]; [exfalso; revert HB; apply nb_make; auto|].
    destruct (decide (a = b)) as [Hab|Hab]; [done|]. exfalso; revert HB; apply nb_make; auto.
  - revert HB. unfold lift. cbn [fst]. unfold run_query.
    pose proof (open_ends w q []) as Ho. destruct (query_open w q []) as [[J| | |] h]; try done.
    + intros HB. exfalso. revert HB. apply collect_term; [apply Ho|lia].
    + intros _. by apply clash_conflict.
  - revert HB. unfold run_query_mut. pose proof (open_ends w q []) as Ho. destruct (query_open w q []) as [[J| | |] h]; try done.
    + intros HB. exfalso. revert HB. apply drive_term; [apply Ho|lia].
    + intros _. by apply clash_conflict.
  - done.
  - exfalso. revert HB. unfold resource_read, bind, get. destruct (w_res w !! r) as [x|]; [|done]. by destruct (_ =? _).
  - exfalso. revert HB. unfold resource_write, bind, get. destruct (w_res w !! r) as [x|]; [|done]. by destruct (_ =? _).
Qed.

(** The same for an iterator used by hand: whatever calls are made on it, in
    whatever order, and whatever is written between them. *)
Theorem C45_iterators_end w q (cs : list (qcall V)) : use_query w q cs = Block -> q_conflict q.
Proof.
  unfold use_query. pose proof (open_ends w q []) as Ho. destruct (query_open w q []) as [[J| | |] h]; try done.
  - intros HB. exfalso. revert HB. apply calls_end, Ho.
  - intros _. by apply clash_conflict.
Qed.
End c45.

(** The loops of the iterators, with no bound: what a `while let` loop does. *)
Inductive loops {S X R} (next : M S (option X)) (body : X -> M S (option R)) : S -> outcome (option R) * S -> Prop :=
  | loop_out s s' : next s = (Ret None, s') -> loops next body s (Ret None, s')
  | loop_found s x s1 y s2 : next s = (Ret (Some x), s1) -> body x s1 = (Ret (Some y), s2) -> loops next body s (Ret (Some y), s2)
  | loop_on s x s1 s2 r : next s = (Ret (Some x), s1) -> body x s1 = (Ret None, s2) -> loops next body s2 r -> loops next body s r
  | loop_panic s s' : next s = (Panic, s') -> loops next body s (Panic, s')
  | loop_ub s s' : next s = (UB, s') -> loops next body s (UB, s')
  | loop_panic_in s x s1 s' : next s = (Ret (Some x), s1) -> body x s1 = (Panic, s') -> loops next body s (Panic, s')
  | loop_ub_in s x s1 s' : next s = (Ret (Some x), s1) -> body x s1 = (UB, s') -> loops next body s (UB, s').

(** The bound put on a loop of the model is no restriction: within it the loop
    does what the loop without a bound does. *)
Theorem C45_bound_harmless {S X R} n (next : M S (option X)) (body : X -> M S (option R)) s :
  (while_some n next body s).1 <> Block -> loops next body s (while_some n next body s).
Proof.
  revert s. induction n as [|n IH]; intros s; cbn [while_some]; [done|]. unfold bind at 1 3.
  destruct (next s) as [[[x|]| | |] s1] eqn:E1; try (intros _; by constructor); [|done].
  unfold bind. destruct (body x s1) as [[[y|]| | |] s2] eqn:E2.
  - intros _. eapply loop_found; eauto.
  - intros H. eapply loop_on; eauto.
  - intros _. eapply loop_panic_in; eauto.
  - intros _. eapply loop_ub_in; eauto.
  - done.
Qed.
(** and that is one thing only *)
Theorem C45_loop_once {S X R} (next : M S (option X)) (body : X -> M S (option R)) s r1 r2 :
  loops next body s r1 -> loops next body s r2 -> r1 = r2.
Proof. intros H. revert r2. induction H as [| |s x s1 s2 r E1 E2 _ IH| | | |]; intros q H2; inversion H2 as [| |? x' s1' s2' ? F1 F2 F3| | | |]; subst; try congruence.
  apply IH. rewrite E1 in F1. injection F1 as <- <-. rewrite E2 in F2. by injection F2 as <-.
Qed.

(** ** Cases *)

(** A world with an owning group of type 1 with itself: three of the calls
    that wait for themselves, on it; the same calls for type 2 end. *)
Definition odd_ops : list (op nat) := [Register 1; Register 2; CreateEntity; MakeGroup KFull 1 1].
Example C45_case :
  answer odd_ops (Attach 1 1 5) = Block /\ answer odd_ops (Attach 2 1 5) = Ret OUnit /\
  answer odd_ops (Detach 1 1) = Block /\ answer odd_ops (MakeGroup KPart 2 2) = Block /\
  answer odd_ops (Query (Q2 (QRef true 1) (QRef false 1))) = Block /\
  waits_for_itself (after odd_ops) (Attach 1 1 5).
Proof.
  repeat (split; [vm_compute; reflexivity|]). exists (KFull, 1, 1). split; [|done]. by vm_compute; left.
Qed.

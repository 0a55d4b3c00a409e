(** The pieces of work of the calls. *)
From stdpp Require Import prelude list gmap.
From Verif Require Import Base Api ModelSparse ModelEntity ModelGroup ModelWorld ModelQuery ModelStep ModelConc SpecConc
  Spec History ProofSparse ProofWorld ProofWf ProofTerm ProofConc ProofConc2 ProofConc3 ProofConc4.

Section pieces.
Context {V : Type}.
Implicit Types (w : world V) (h hs mine : list (lock * bool)).
Variables (w0 : world V) (lt : lock -> lock -> Prop) (pl : Prop).
Notation piece := (piece w0).

(** *** No piece of work blocks *)
Lemma nb_assert {S} b : nblock (S := S) (assert b).
Proof. by destruct b. Qed.
Lemma nb_fmapM {S A B} (f : A -> B) (m : M S A) : nblock m -> nblock (fmapM f m).
Proof. intros H. apply nb_bind; [done|]. intros a. apply nb_ret. Qed.
Lemma nb_panic {S A} : nblock (@panic S A).
Proof. done. Qed.
Lemma nb_for_each {S A} (l : list A) (f : A -> M S unit) : (forall x, nblock (f x)) -> nblock (for_each l f).
Proof. intros H. induction l; [done|]. by apply nb_bind. Qed.
Lemma nb_for_range {S} a n (f : nat -> M S unit) : (forall x, nblock (f x)) -> nblock (for_range a n f).
Proof. intros H. revert a. induction n; intros a; [done|]. by apply nb_bind. Qed.
Ltac nb := repeat first
  [ progress intros
  | assumption
  | match goal with
    | |- nblock (ret _) => apply nb_ret
    | |- nblock ub => apply nb_ub
    | |- nblock get => apply nb_get
    | |- nblock panic => apply nb_panic
    | |- nblock (put _) => apply nb_put
    | |- nblock (assert _) => apply nb_assert
    | |- nblock (unwrap _) => apply nb_unwrap
    | |- nblock (bind _ _) => apply nb_bind
    | |- nblock (fmapM _ _) => apply nb_fmapM
    | |- nblock (for_each _ _) => apply nb_for_each
    | |- nblock (for_range _ _ _) => apply nb_for_range
    | |- nblock (if ?b then _ else _) => destruct b
    | |- nblock (match ?b with _ => _ end) => destruct b
    end ].
Lemma nb_add {U} e (v : U) : nblock (ss_add e v).
Proof. unfold ss_add. nb. Qed.
Lemma nb_remove {U} e : nblock (@ss_remove U e).
Proof. unfold ss_remove. nb. Qed.
Lemma nb_cs_remove {U} e : nblock (@cs_remove U e).
Proof. unfold cs_remove. apply nb_bind; [apply nb_remove|nb]. Qed.
Lemma nb_swap {U} i j : nblock (@ss_swap_by_index U i j).
Proof. unfold ss_swap_by_index. nb. Qed.
Lemma nb_batch {U} l (vs : list U) : nblock (ss_add_batch l vs).
Proof. unfold ss_add_batch. nb. Qed.
Lemma nb_on_a {D A} (m : M (sset V) A) : nblock m -> nblock (S := gctx V D) (on_a m).
Proof. intros H c. specialize (H (gc_a c)). unfold on_a. by destruct (m (gc_a c)). Qed.
Lemma nb_on_b {D A} (m : M (sset V) A) : nblock m -> nblock (S := gctx V D) (on_b m).
Proof. intros H c. specialize (H (gc_b c)). unfold on_b. by destruct (m (gc_b c)). Qed.
Lemma nb_on_d {D A} (m : M D A) : nblock m -> nblock (S := gctx V D) (on_d m).
Proof. intros H c. specialize (H (gc_d c)). unfold on_d. by destruct (m (gc_d c)). Qed.
Lemma nb_on_nd {A} (m : M (sset (nat * nat)) A) : nblock m -> nblock (on_nd m).
Proof. intros H d. specialize (H (nd_set d)). unfold on_nd. by destruct (m (nd_set d)). Qed.
Lemma nb_full_in d (a b : sset V) id : full_in_group d a b id <> Block.
Proof. unfold full_in_group. destruct (negb _); [done|]. by destruct (ss_get_index a id), (ss_get_index b id). Qed.
Lemma nb_part_in d (a b : sset V) id : part_in_group d a b id <> Block.
Proof. unfold part_in_group. destruct (negb _); [done|]. by destruct (ss_get_index a id). Qed.
Lemma nb_non_in d (a b : sset V) id : non_in_group d a b id <> Block.
Proof. unfold non_in_group. by destruct (negb _). Qed.
Ltac nbg := repeat first
  [ progress nb
  | match goal with
    | |- nblock (on_a _) => apply nb_on_a
    | |- nblock (on_b _) => apply nb_on_b
    | |- nblock (on_d _) => apply nb_on_d
    | |- nblock (on_nd _) => apply nb_on_nd
    | |- nblock (ss_swap_by_index _ _) => apply nb_swap
    | |- nblock (ss_add _ _) => apply nb_add
    | |- nblock (ss_remove _) => apply nb_remove
    | |- nblock (cs_remove _) => apply nb_cs_remove
    | |- nblock (lift (full_in_group _ _ _ _)) => apply nb_lift, nb_full_in
    | |- nblock (lift (part_in_group _ _ _ _)) => apply nb_lift, nb_part_in
    | |- nblock (lift (non_in_group _ _ _ _)) => apply nb_lift, nb_non_in
    | |- nblock (full_set_len _) => done
    | |- nblock (part_set_len _) => done
    end ].
Lemma nb_full_add id : nblock (@full_add V id).
Proof. unfold full_add. nbg. Qed.
Lemma nb_full_remove id : nblock (@full_remove V id).
Proof. unfold full_remove. nbg. Qed.
Lemma nb_part_add id : nblock (@part_add V id).
Proof. unfold part_add. nbg. Qed.
Lemma nb_part_remove id : nblock (@part_remove V id).
Proof. unfold part_remove. nbg. Qed.
Lemma nb_non_add id : nblock (@non_add V id).
Proof. unfold non_add. nbg. Qed.
Lemma nb_non_remove id : nblock (@non_remove V id).
Proof. unfold non_remove. nbg. Qed.
Lemma nb_full_kill id : nblock (@full_remove V id >>! on_a (cs_remove id) >>! on_b (cs_remove id)).
Proof. apply nb_bind; [apply nb_full_remove|nbg]. Qed.
Lemma nb_part_kill id : nblock (@part_remove V id >>! on_a (cs_remove id)).
Proof. apply nb_bind; [apply nb_part_remove|nbg]. Qed.
Lemma nb_em_alloc : nblock em_allocate.
Proof. unfold em_allocate. nb. Qed.
Lemma nb_em_alloc_n n : nblock (em_allocate_n n).
Proof. unfold em_allocate_n. nb. Qed.
Lemma nb_em_remove id : nblock (em_remove id).
Proof. unfold em_remove. nb. Qed.
Lemma nb_exist id w : exist id w <> Block.
Proof. unfold exist, em_has. by destruct (flags (w_em w) !! id) as [[]|]. Qed.
Lemma nb_on_em {A} (m : M em A) : nblock m -> nblock (S := world V) (on_em m).
Proof. intros H w. specialize (H (w_em w)). unfold on_em. by destruct (m (w_em w)). Qed.
Lemma nb_storage_mut {A} t (m : M (sset V) A) : nblock m -> nblock (storage_mut t m).
Proof.
  intros H w. unfold storage_mut. destruct (w_comps w !! t) as [st|]; [|done]. destruct (_ =? _); [|done]. specialize (H (st_set st)).
  by destruct (m (st_set st)).
Qed.
Lemma nb_dyn_mut {A} t (m : M (sset V) A) : nblock m -> nblock (dyn_mut t m).
Proof.
  intros H w. unfold dyn_mut. destruct (w_comps w !! t) as [st|]; [|done]. specialize (H (st_set st)). by destruct (m (st_set st)).
Qed.
(** A group method blocks only if both storages are the same. *)
Lemma nb_run_group i ff fp fn k a b w : nblock ff -> nblock fp -> nblock fn -> group_head i w = Some (k, a, b) -> a <> b ->
  (run_group_at i ff fp fn w).1 <> Block.
Proof.
  intros F1 F2 F3 Hh Hab. unfold group_head in Hh. unfold run_group_at.
  destruct (w_groups w !! i) as [[d|d|d]|]; [..|done]; injection Hh as <- <- <-.
  - destruct (w_comps w !! fd_a d) as [sa|]; [|done]. apply Nat.eqb_neq in Hab. rewrite Hab.
    destruct (w_comps w !! fd_b d) as [sb|]; [|done]. specialize (F1 (GC d (st_set sa) (st_set sb))). by destruct (ff _).
  - destruct (w_comps w !! pd_a d) as [sa|]; [|done]. apply Nat.eqb_neq in Hab. rewrite Hab.
    destruct (w_comps w !! pd_b d) as [sb|]; [|done]. specialize (F2 (GC d (st_set sa) (st_set sb))). by destruct (fp _).
  - destruct (w_comps w !! nd_a d) as [sa|]; [|done]. 
    destruct (w_comps w !! nd_b d) as [sb|]; [|done]. specialize (F3 (GC d (st_set sa) (st_set sb))). by destruct (fn _).
Qed.

(** *** The pieces *)
Lemma piece_new h : (LMan, true) ∈ h -> piece h BNew (on_em em_allocate).
Proof. intros H. split; [by apply confined_on_em|done]. Qed.
Lemma piece_alloc h n : (LMan, true) ∈ h -> piece h (BAlloc n) (on_em (em_allocate_n n)).
Proof. intros H. split; [by apply confined_on_em|done]. Qed.
Lemma piece_free h id : (LMan, true) ∈ h -> piece h (BFree id) (on_em (em_remove id)).
Proof. intros H. split; [by apply confined_on_em|done]. Qed.
Lemma piece_put h t id v : (LStore t, true) ∈ h -> piece h (BPut t id v) (storage_mut t (ss_add id v)).
Proof. intros H. split; [by apply confined_storage_mut|done]. Qed.
Lemma piece_batch h t lo hi vs : (LStore t, true) ∈ h -> piece h (BBatch t lo hi vs) (storage_mut t (ss_add_batch (seq lo (hi - lo)) vs)).
Proof. intros H. split; [by apply confined_storage_mut|done]. Qed.
Lemma piece_take h t id : (LStore t, true) ∈ h -> piece h (BTake t id) (storage_mut t (ss_remove id)).
Proof. intros H. split; [by apply confined_storage_mut|done]. Qed.
Lemma piece_drop h t id : (LStore t, true) ∈ h -> piece h (BDrop t id) (dyn_mut t (cs_remove id)).
Proof. intros H. split; [by apply confined_dyn_mut|done]. Qed.

(** the work on groups *)
Record gwork (i : nat) (lab : label V) ff fp fn : Prop := {
  gk_f : same_types_d fty ff; gk_p : same_types_d pty fp; gk_n : same_types_d nty fn;
  gk_of : ok (gI (fun _ => True)) ff; gk_op : ok (gI (fun _ => True)) fp; gk_on : ok (gI ndP) fn;
  gk_bf : nblock ff; gk_bp : nblock fp; gk_bn : nblock fn;
  gk_lab : forall w, moves lab w (run_group_at i ff fp fn w).2
}.
Lemma gwork_add i id : gwork i (BAdd i id) (full_add id) (part_add id) (non_add id).
Proof.
  split; [apply keeps_full_add|apply keeps_part_add|apply keeps_non_add|apply ok_full_add|apply ok_part_add|apply ok_non_add
    |apply nb_full_add|apply nb_part_add|apply nb_non_add|done].
Qed.
Lemma gwork_leave i id : gwork i (BLeave i id) (full_remove id) (part_remove id) (non_remove id).
Proof.
  split; [apply keeps_full_remove|apply keeps_part_remove|apply keeps_non_remove|apply ok_full_remove|apply ok_part_remove|apply ok_non_remove
    |apply nb_full_remove|apply nb_part_remove|apply nb_non_remove|done].
Qed.
Lemma gwork_kill i id : gwork i (BKill i id)
  (full_remove id >>! on_a (cs_remove id) >>! on_b (cs_remove id)) (part_remove id >>! on_a (cs_remove id)) (non_remove id).
Proof.
  split; [apply keeps_full_kill|apply keeps_part_kill|apply keeps_non_remove| | |apply ok_non_remove
    |apply nb_full_kill|apply nb_part_kill|apply nb_non_remove|done].
  - apply ok_bind; [apply ok_full_remove|]. intros _. apply ok_bind; [apply ok_on_a, ok_cs_remove|]. intros _. apply ok_on_b, ok_cs_remove.
  - apply ok_bind; [apply ok_part_remove|]. intros _. apply ok_on_a, ok_cs_remove.
Qed.
Lemma piece_group h i lab ff fp fn k a b : gwork i lab ff fp fn -> group_head i w0 = Some (k, a, b) ->
  (LGroup i, true) ∈ h -> (LStore a, mode_a k) ∈ h -> (LStore b, mode_b k) ∈ h -> piece h lab (run_group_at i ff fp fn).
Proof. intros G Hh H1 H2 H3. split; [eapply confined_run_group; eauto; apply G|]. intros w _. apply G. Qed.

(** *** Calls through a guard *)
(** [m] reads and writes the storage of [t] only *)
Definition on_store {B} (t : tid) (g : option (storage V) -> outcome B * option (sset V)) : M (world V) B := fun w =>
  match w_comps w !! t with
  | None => ((g None).1, w)
  | Some st =>
      match g (Some st) with
      | (o, None) => (o, w)
      | (o, Some s') => (o, set_comps (<[t := St (st_ty st) s']> (w_comps w)) w)
      end
  end.
Lemma confined_store h t {B} (g : option (storage V) -> outcome B * option (sset V)) (m : M (world V) B) :
  (forall w, m w = on_store t g w) -> (LStore t, true) ∈ h -> confined w0 h m.
Proof.
  intros Hm Hl w _. rewrite Hm. unfold on_store. destruct (w_comps w !! t) as [st|] eqn:E.
  - destruct (g (Some st)) as [o [s'|]] eqn:Eg; simpl.
    + split; [by apply shape_comp|]. split; [intros l Hn; apply part_comp_ne; congruence|].
      intros w' [Hs Ha]. pose proof (Ha _ _ Hl) as E'. simpl in E'. rewrite E in E'. rewrite Hm. unfold on_store. rewrite <- E', Eg.
      simpl. split; [done|]. intros l x Hin. eapply part_comp; [done|done|by eapply Ha].
    + split; [apply shape_refl|]. split; [intros; apply part_refl|]. intros w' [Hs Ha]. pose proof (Ha _ _ Hl) as E'. simpl in E'.
      rewrite E in E'. rewrite Hm. unfold on_store. rewrite <- E', Eg. done.
  - simpl. split; [apply shape_refl|]. split; [intros; apply part_refl|]. intros w' [Hs Ha]. pose proof (Ha _ _ Hl) as E'. simpl in E'.
    rewrite E in E'. rewrite Hm. unfold on_store. rewrite <- E'. done.
Qed.
Lemma rewritten_refl w : rewritten w w.
Proof. done. Qed.
Lemma rewritten_trans w1 w2 w3 : rewritten w1 w2 -> rewritten w2 w3 -> rewritten w1 w3.
Proof. intros (A&B&C&D) (E&F&G&H). split; [congruence|]. split; [congruence|]. split; [|auto]. intros t. rewrite C. apply G. Qed.
Lemma rewritten_poke w t st i v : w_comps w !! t = Some st ->
  rewritten w (set_comps (<[t := St (st_ty st) (ss_poke i v (st_set st))]> (w_comps w)) w).
Proof.
  intros E. split; [done|]. split; [done|]. split.
  - intros u. simpl. destruct (decide (u = t)) as [->|]; [by rewrite lookup_insert, E|by rewrite lookup_insert_ne].
  - intros G. apply good_comp; [done|done|]. apply poke_wf. by apply (gd_st w G t st E).
Qed.
Lemma rewritten_pk w t i f : rewritten w (poke w t i f).
Proof. unfold poke. destruct (w_comps w !! t) as [st|] eqn:E; [|done]. destruct (sdata (st_set st) !! i); [|done]. by apply rewritten_poke. Qed.
Lemma rewritten_poke_item f id it w : rewritten w (poke_item f id it w).
Proof.
  revert w. induction it as [m t i|a IHa b IHb|a IHa b IHb c IHc|a IHa b IHb c IHc d IHd|a IHa b IHb c IHc d IHd e IHe]; intros w; simpl.
  - destruct m; [apply rewritten_pk|done].
  - eapply rewritten_trans; [apply IHa|apply IHb].
  - eapply rewritten_trans; [apply IHa|]. eapply rewritten_trans; [apply IHb|apply IHc].
  - eapply rewritten_trans; [apply IHa|]. eapply rewritten_trans; [apply IHb|]. eapply rewritten_trans; [apply IHc|apply IHd].
  - eapply rewritten_trans; [apply IHa|]. eapply rewritten_trans; [apply IHb|]. eapply rewritten_trans; [apply IHc|].
    eapply rewritten_trans; [apply IHd|apply IHe].
Qed.
Lemma rewritten_drive n J f st w : rewritten w (drive n J f st w).2.
Proof.
  revert st w. induction n as [|n IH]; intros st w; [done|]. cbn [drive].
  destruct (qi_next_id J w st) as [[[[id it]|]| | |] st']; try done. destruct (deref w it); [|done].
  specialize (IH st' (poke_item f id it w)). pose proof (rewritten_poke_item f id it w) as H.
  destruct (drive n J f st' (poke_item f id it w)) as [[l| | |] w1]; by eapply rewritten_trans.
Qed.
Lemma rewritten_values g w : rewritten w (rewrite_values g w).
Proof.
  split; [done|]. split; [done|]. split; [|apply good_rewrite]. intros t. unfold rewrite_values. simpl. rewrite map_lookup_imap.
  by destruct (w_comps w !! t).
Qed.

(** the calls possible through a guard on the storage of [t] *)
Definition reads_store (o : op V) : option tid :=
  match o with
  | ReadComp t _ | StoreCount t | StoreIsEmpty t | StoreExist t _ | StoreGet t _ | StoreData t => Some t
  | _ => None
  end.
Definition writes_store (o : op V) : option tid :=
  match o with WriteComp t _ _ | StoreGetMut t _ _ | StoreDataSet t _ _ => Some t | _ => None end.

Lemma read_op_pure o t w : reads_store o = Some t -> (step o w).2 = w.
Proof.
  destruct o; try done; intros [= ->]; cbn [step]; unfold fmapM, via_storage, entity_component_read, components_read, bind, get, lift, ret, ub;
    destruct (w_comps w !! t) as [st|]; try done; destruct (st_ty st =? t); try done.
  - destruct (ss_exist (st_set st) id); [|done]. destruct (ss_get_unchecked_loc (st_set st) id); try done. by destruct (sdata (st_set st) !! a).
  - by destruct (ss_get (st_set st) id).
Qed.
Lemma read_op_eq o t w w' : reads_store o = Some t -> w_comps w !! t = w_comps w' !! t -> (step o w).1 = (step o w').1.
Proof.
  destruct o; try done; intros [= ->] E; cbn [step]; unfold fmapM, via_storage, entity_component_read, components_read, bind, get, lift, ret, ub;
    rewrite <- E; destruct (w_comps w !! t) as [st|]; try done; destruct (st_ty st =? t); try done.
  - destruct (ss_exist (st_set st) id); [|done]. destruct (ss_get_unchecked_loc (st_set st) id); try done. by destruct (sdata (st_set st) !! a).
  - by destruct (ss_get (st_set st) id).
Qed.
Lemma read_op_nb o t w : reads_store o = Some t -> (step o w).1 <> Block.
Proof.
  destruct o; try done; intros [= ->]; cbn [step]; unfold fmapM, via_storage, entity_component_read, components_read, bind, get, lift, ret, ub;
    destruct (w_comps w !! t) as [st|]; try done; destruct (st_ty st =? t); try done.
  - destruct (ss_exist (st_set st) id); [|done]. unfold ss_get_unchecked_loc. destruct (indices (st_set st) !! id) as [[k|]|]; try done.
    destruct (_ <? _); [|done]. by destruct (sdata (st_set st) !! _).
  - pose proof (nb_val (st_set st) id). by destruct (ss_get (st_set st) id).
Qed.
Definition write_fun (o : op V) : option (storage V) -> outcome (out V) * option (sset V) := fun os =>
  match os with
  | None => (Ret (OBool false), None)
  | Some st =>
      match o with
      | WriteComp t id v =>
          if st_ty st =? t then
            if ss_exist (st_set st) id then
              match ss_get_unchecked_loc (st_set st) id with
              | Ret i => (Ret (OBool true), Some (ss_poke i v (st_set st)))
              | Panic => (Panic, None) | UB => (UB, None) | Block => (Block, None)
              end
            else (Ret (OBool false), None)
          else (UB, None)
      | StoreGetMut t id v =>
          if st_ty st =? t then
            match ss_get_loc (st_set st) id with
            | Ret (Some i) => (Ret (OBool true), Some (ss_poke i v (st_set st)))
            | Ret None => (Ret (OBool false), None)
            | Panic => (Panic, None) | UB => (UB, None) | Block => (Block, None)
            end
          else (UB, None)
      | StoreDataSet t i v =>
          if st_ty st =? t then
            if i <? length (sdata (st_set st)) then (Ret (OBool true), Some (ss_poke i v (st_set st))) else (Panic, None)
          else (UB, None)
      | _ => (Panic, None)
      end
  end.
Lemma write_op_eq o t w : writes_store o = Some t -> step o w = on_store t (write_fun o) w.
Proof.
  destruct o; try done; intros [= ->]; cbn [step]; unfold on_store, fmapM, storage_get_mut, storage_data_set, entity_component_write,
    components_read, bind, get, lift; destruct (w_comps w !! t) as [st|] eqn:E; try done; cbn [write_fun]; destruct (st_ty st =? t) eqn:Et; try done.
  - destruct (ss_exist (st_set st) id); [|done]. destruct (ss_get_unchecked_loc (st_set st) id); try done.
    unfold storage_mut. rewrite E, Et. done.
  - destruct (ss_get_loc (st_set st) id) as [[i|]| | |]; try done. unfold storage_mut. rewrite E, Et. done.
  - unfold assert. destruct (_ <? _); [|done]. simpl. unfold storage_mut. rewrite E, Et. done.
Qed.
Lemma write_op_rewritten o t w : writes_store o = Some t -> rewritten w (step o w).2.
Proof.
  intros Ho. rewrite (write_op_eq o t) by done. unfold on_store. destruct (w_comps w !! t) as [st|] eqn:E; [|done].
  destruct (write_fun o (Some st)) as [oo [s'|]] eqn:Ef; [|done]. simpl.
  assert (exists i v, s' = ss_poke i v (st_set st)) as (i & v & ->); [|by apply rewritten_poke].
  destruct o; simpl in Ef; try done.
  - destruct (_ =? _); [|done]. destruct (ss_exist _ _); [|done]. destruct (ss_get_unchecked_loc _ _); try done. naive_solver.
  - destruct (_ =? _); [|done]. destruct (ss_get_loc _ _) as [[]| | |]; try done. naive_solver.
  - destruct (_ =? _); [|done]. destruct (_ <? _); [|done]. naive_solver.
Qed.
Lemma write_op_nb o t w : writes_store o = Some t -> (step o w).1 <> Block.
Proof.
  intros Ho. rewrite (write_op_eq o t) by done. unfold on_store. destruct (w_comps w !! t) as [st|] eqn:E; [|done].
  assert ((write_fun o (Some st)).1 <> Block) as H; [|by destruct (write_fun o (Some st)) as [oo [s'|]]].
  destruct o; simpl; try done; destruct (_ =? _); try done.
  - destruct (ss_exist _ _); [|done]. unfold ss_get_unchecked_loc. destruct (indices (st_set st) !! id) as [[k|]|]; try done.
    by destruct (_ <? _).
  - pose proof (nb_loc (st_set st) id). by destruct (ss_get_loc _ _) as [[]| | |].
  - by destruct (_ <? _).
Qed.
Lemma piece_read_op h o t x : reads_store o = Some t -> (LStore t, x) ∈ h -> piece h BRead (step o).
Proof.
  intros Ho Hl. apply piece_read; [by intros w; eapply read_op_pure|]. intros w w' _ [_ Ha]. eapply read_op_eq; [done|]. exact (Ha _ _ Hl).
Qed.
Lemma piece_write_op h o t : writes_store o = Some t -> (LStore t, true) ∈ h -> piece h (BSet o) (step o).
Proof.
  intros Ho Hl. split; [|intros w _; split; [by eapply write_op_rewritten|done]]. eapply confined_store; [|done]. intros w. by apply write_op_eq.
Qed.
Lemma unregistered_op h o t : (reads_store o = Some t \/ writes_store o = Some t) -> has_registered t w0 = false -> piece h BRead (step o).
Proof.
  intros Ho Hr. assert (forall w, same_shape w0 w -> w_comps w !! t = None) as HN.
  { intros w Hs. rewrite (shape_has _ _ t Hs) in Hr. apply bool_decide_eq_false in Hr. by apply eq_None_not_Some. }
  assert (forall w, w_comps w !! t = None -> (step o w).2 = w) as H2.
  { intros w E. destruct Ho as [Ho|Ho]; [by eapply read_op_pure|]. rewrite (write_op_eq o t) by done. unfold on_store. by rewrite E. }
  split.
  - intros w Hw. rewrite (H2 w) by auto. split; [apply shape_refl|]. split; [intros; apply part_refl|]. intros w' [Hs Ha].
    assert (same_shape w0 w') as Hw' by (by eapply shape_trans). rewrite (H2 w') by auto. split; [|done].
    destruct Ho as [Ho|Ho]; [eapply read_op_eq; [done|]; by rewrite !HN|]. rewrite !(write_op_eq o t) by done. unfold on_store. by rewrite !HN.
  - intros w Hw. simpl. rewrite (H2 w); auto.
Qed.
(** resources *)
Lemma piece_read_res h r x : (LRes r, x) ∈ h -> piece h BRead (step (ReadRes r)).
Proof.
  intros Hl. apply piece_read.
  - intros w. cbn [step]. unfold fmapM, resource_read, bind, get, ret, ub. destruct (w_res w !! r) as [y|]; [|done]. by destruct (_ =? _).
  - intros w w' _ [_ Ha]. specialize (Ha _ _ Hl). simpl in Ha. cbn [step]. unfold fmapM, resource_read, bind, get, ret, ub. rewrite <- Ha.
    destruct (w_res w !! r) as [y|]; [|done]. by destruct (_ =? _).
Qed.
Lemma shape_res w r y v : w_res w !! r = Some y -> same_shape w (set_res (<[r := RV (rv_ty y) v]> (w_res w)) w).
Proof. intros E. split; [done|done|]. intros u. simpl. destruct (decide (u = r)) as [->|]; [by rewrite lookup_insert, E|by rewrite lookup_insert_ne]. Qed.
Lemma piece_write_res h r v : (LRes r, true) ∈ h -> piece h (BSet (WriteRes r v)) (step (WriteRes r v)).
Proof.
  intros Hl. cbn [step]. unfold fmapM, resource_write, bind, get, ret, ub, put. split.
  - intros w _. destruct (w_res w !! r) as [y|] eqn:E; [destruct (rv_ty y =? r) eqn:Ey|].
    + simpl. split; [by apply shape_res|]. split.
      * intros [|i|t|q] Hn; try done. simpl. rewrite lookup_insert_ne; [done|]. congruence.
      * intros w' [Hs Ha]. pose proof (Ha _ _ Hl) as E'. simpl in E'. rewrite <- E', E, Ey. simpl. split; [done|].
        intros [|i|t|q] x Hin; simpl; try exact (Ha _ _ Hin). destruct (decide (q = r)) as [->|]; [by rewrite !lookup_insert|].
        rewrite !lookup_insert_ne by done. exact (Ha _ _ Hin).
    + simpl. split; [apply shape_refl|]. split; [intros; apply part_refl|]. intros w' [Hs Ha]. pose proof (Ha _ _ Hl) as E'. simpl in E'.
      rewrite <- E', E, Ey. done.
    + simpl. split; [apply shape_refl|]. split; [intros; apply part_refl|]. intros w' [Hs Ha]. pose proof (Ha _ _ Hl) as E'. simpl in E'.
      rewrite <- E', E. done.
  - intros w _. split; [|done]. simpl. destruct (w_res w !! r) as [y|] eqn:E; [|done]. destruct (rv_ty y =? r) eqn:Ey; [|done]. simpl.
    split; [done|]. split; [done|]. split; [done|]. intros [A B C]. split; [done|done|].
    intros u z. simpl. destruct (decide (u = r)) as [->|]; [rewrite lookup_insert; intros [= <-]; simpl; by apply (C r)|].
    rewrite lookup_insert_ne by done. apply C.
Qed.
Lemma unregistered_res h r v : has_res r w0 = false -> piece h BRead (step (ReadRes r)) /\ piece h BRead (step (WriteRes r v)).
Proof.
  intros Hr. assert (forall w, same_shape w0 w -> w_res w !! r = None) as HN.
  { intros w Hs. apply bool_decide_eq_false in Hr. apply eq_None_not_Some. intros Hx. apply Hr. pose proof (sh_res _ _ Hs r) as E.
    apply (fmap_is_Some rv_ty). rewrite E. by apply fmap_is_Some. }
  split; (split; [intros w Hw; cbn [step]; unfold fmapM, resource_read, resource_write, bind, get, ret, ub, put; rewrite HN by done; simpl;
    split; [apply shape_refl|]; split; [intros; apply part_refl|]; intros w' [Hs Ha]; rewrite HN by (by eapply shape_trans); done
   |intros w Hw; cbn [step]; unfold fmapM, resource_read, resource_write, bind, get, ret, ub, put; rewrite HN by done; done]).
Qed.
End pieces.

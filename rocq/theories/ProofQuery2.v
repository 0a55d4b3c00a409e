(** Query combinators. *)
From stdpp Require Import prelude list gmap.
From Verif Require Import Base Api ModelSparse ModelEntity ModelGroup ModelWorld ModelQuery
  Spec ProofSparse ProofEntity ProofGroup ProofWorld ProofQuery.

Section query.
Context {V : Type}.
Notation world := (world V).
Notation storage := (storage V).
Implicit Types (w : world) (aw : aworld V) (A B C D E J : qiter V).

Definition get2 (ga gb : nat -> option item) (id : nat) : option item :=
  match ga id, gb id with Some a, Some b => Some (I2 a b) | _, _ => None end.
Definition get3 (ga gb gc : nat -> option item) (id : nat) : option item :=
  match ga id, gb id, gc id with Some a, Some b, Some c => Some (I3 a b c) | _, _, _ => None end.
Definition get4 (ga gb gc gd : nat -> option item) (id : nat) : option item :=
  match ga id, gb id, gc id, gd id with
  | Some a, Some b, Some c, Some d => Some (I4 a b c d) | _, _, _, _ => None end.
Definition get5 (ga gb gc gd ge : nat -> option item) (id : nat) : option item :=
  match ga id, gb id, gc id, gd id, ge id with
  | Some a, Some b, Some c, Some d, Some e => Some (I5 a b c d e) | _, _, _, _, _ => None end.
Definition get_not (ga gb : nat -> option item) (id : nat) : option item :=
  match ga id with None => gb id | Some _ => None end.

(** keep the entities [get] answers for *)
Definition keep (get : nat -> option item) (l : list (nat * item)) : list (nat * item) :=
  omap (fun x => (fun it => (x.1, it)) <$> get x.1) l.

Lemma keep_elem get l id it : (id, it) ∈ keep get l <-> id ∈ l.*1 /\ get id = Some it.
Proof.
  unfold keep. rewrite elem_of_list_omap, elem_of_list_fmap. split.
  - intros ([id' it'] & Hin & E). simpl in E. destruct (get id') eqn:G; simpl in E; [|done].
    injection E as -> ->. split; [|done]. by exists (id, it').
  - intros [([id' it'] & Hid & Hin) G]. simpl in Hid. subst id'. exists (id, it'). split; [done|]. simpl. by rewrite G.
Qed.
Lemma keep_fst get l id : id ∈ (keep get l).*1 <-> id ∈ l.*1 /\ is_Some (get id).
Proof.
  rewrite elem_of_list_fmap. split.
  - intros ([id' it] & -> & Hin). apply keep_elem in Hin as [H1 H2]. simpl. eauto.
  - intros [H [it G]]. exists (id, it). split; [done|]. by apply keep_elem.
Qed.

Lemma keep_filter get l (P : nat -> bool) : (forall id, id ∈ l.*1 -> P id = true <-> is_Some (get id)) ->
  (keep get l).*1 = filter (fun id => P id = true) l.*1.
Proof.
  intros H. induction l as [|[id it] l IH]; [done|]. cbn [fmap list_fmap fst].
  assert (P id = true <-> is_Some (get id)) as Hid by (apply H; left).
  assert ((keep get l).*1 = filter (fun id => P id = true) l.*1) as IH' by (apply IH; intros e He; apply H; by right).
  rewrite filter_cons. destruct (get id) as [x|] eqn:G.
  - assert (keep get ((id, it) :: l) = (id, x) :: keep get l) as -> by (unfold keep; simpl; by rewrite G).
    rewrite decide_True by (apply Hid; eauto). cbn [fmap list_fmap fst]. by rewrite <- IH'.
  - assert (keep get ((id, it) :: l) = keep get l) as -> by (unfold keep; simpl; by rewrite G).
    rewrite decide_False; [exact IH'|]. intros E. apply Hid in E as [? ?]. done.
Qed.

Lemma keep_both get l (P : nat -> bool) L : l.*1 = L -> (forall id, id ∈ (keep get l).*1 <-> P id = true) ->
  (keep get l).*1 = filter (fun id => P id = true) L /\ forall id, id ∈ (keep get l).*1 <-> P id = true.
Proof.
  intros <- H. split; [|done]. apply keep_filter. intros id Hid. rewrite <- H, keep_fst. naive_solver.
Qed.

(** [omap] with a function that agrees on the elements *)
Lemma omap_ext_in {X Y} (f g : X -> option Y) (l : list X) : (forall x, x ∈ l -> f x = g x) -> omap f l = omap g l.
Proof.
  intros H. induction l as [|x l IH]; [done|]. simpl. rewrite (H x) by left.
  assert (omap f l = omap g l) as IH' by (apply IH; intros y Hy; apply H; by right).
  destruct (g x); [f_equal|]; exact IH'.
Qed.


Ltac run_from H id :=
  let s := fresh "s" in let E := fresh "E" in let R' := fresh "R'" in
  destruct (H id) as (s & E & R').

Lemma with2_ok sA sB w A B ga gb la lb : iter_ok sA w A ga la -> iter_ok sB w B gb lb ->
  iter_ok false w (with2 A B) (get2 ga gb) (keep (get2 ga gb) la).
Proof.
  pose proof Logic.I as E.
  intros [NA GA (RA & IA & HA)] [NB GB (RB & IB & HB)].
  assert (keep (get2 ga gb) la = omap (fun x => (fun b => (x.1, I2 x.2 b)) <$> gb x.1) la) as ->.
  { apply omap_ext_in. intros [id a] Hin. simpl. unfold get2. rewrite (GA _ _ Hin). by destruct (gb id). }
  apply (filter_ok w (with2 A B) _ la _ (fun st l => RA st.1 l /\ exists lb, RB st.2 lb)).
  - done.
  - intros x y. destruct (gb x.1); simpl; [|done]. by intros [= <-].
  - intros id it x Hin. simpl. unfold get2. rewrite (GA _ _ Hin). destruct (gb id); simpl; [|done]. by intros [= <-].
  - split; [done|]. by exists lb.
  - intros w' [sa sb] l Hw [Ra [lb' Rb]]. cbn [fst snd] in Ra, Rb.
    destruct (HA w' Hw sa l Ra) as (_ & _ & Fa & La & _). destruct (HB w' Hw sb lb' Rb) as (_ & _ & Fb & _ & _).
    split; [|split; [|split; [done|done]]].
    + eexists _, _, _. split; [reflexivity|]. split; [reflexivity|]. split_and!.
      * intros [s1 s2] l1 [R1 R2]. cbn [fst snd] in *. destruct (HA w' Hw s1 l1 R1) as (N & _).
        destruct l1 as [|x l1]; destruct N as (s' & EN & R'); exists (s', s2); unfold on_fst; cbn [fst snd];
          rewrite EN; by eauto.
      * intros [s1 s2] l1 [id a] [R1 [l2 R2]]. cbn [fst snd] in *.
        destruct (HB w' Hw s2 l2 R2) as (_ & _ & F & _ & _). run_from F id.
        exists (s1, s). split; [|eauto]. unfold bind, on_snd. cbn [fst snd]. rewrite E0. by destruct (gb id).
      * intros [s1 s2] l1 [id a] [R1 [l2 R2]]. cbn [fst snd] in *.
        destruct (HB w' Hw s2 l2 R2) as (_ & _ & F & _ & _). run_from F id.
        exists (s1, s). split; [|eauto]. unfold bind, on_snd. cbn [fst snd]. rewrite E0. by destruct (gb id).
    + intros id. run_from Fa id. run_from Fb id. unfold get2. cbn [qi_from_id with2].
      unfold bind at 1, on_fst. cbn [fst snd]. rewrite E0.
      destruct (ga id); [|exists (s, sb); split; [done|]; eauto].
      exists (s, s0). unfold bind, on_snd. cbn [fst snd]. rewrite E1. split; [by destruct (gb id)|]. eauto.
Qed.

Lemma without_right_ok sA sB w A B ga gb la lb : iter_ok sA w A ga la -> iter_ok sB w B gb lb ->
  iter_ok false w (without_right A B) (get_not gb ga) (keep (get_not gb ga) la).
Proof.
  pose proof Logic.I as E.
  intros [NA GA (RA & IA & HA)] [NB GB (RB & IB & HB)].
  assert (keep (get_not gb ga) la = omap (fun x => match gb x.1 with None => Some x | Some _ => None end) la) as ->.
  { apply omap_ext_in. intros [id a] Hin. simpl. unfold get_not. rewrite (GA _ _ Hin). by destruct (gb id). }
  apply (filter_ok w (without_right A B) _ la _ (fun st l => RA st.1 l /\ exists lb, RB st.2 lb)).
  - done.
  - intros x y. destruct (gb x.1); simpl; [done|]. by intros [= <-].
  - intros id it x Hin. simpl. unfold get_not. rewrite (GA _ _ Hin). destruct (gb id); simpl; [done|]. by intros [= <-].
  - split; [done|]. by exists lb.
  - intros w' [sa sb] l Hw [Ra [lb' Rb]]. cbn [fst snd] in Ra, Rb.
    destruct (HA w' Hw sa l Ra) as (_ & _ & Fa & La & _). destruct (HB w' Hw sb lb' Rb) as (_ & _ & Fb & _ & _).
    split; [|split; [|split; [done|done]]].
    + eexists _, _, _. split; [reflexivity|]. split; [reflexivity|]. split_and!.
      * intros [s1 s2] l1 [R1 R2]. cbn [fst snd] in *. destruct (HA w' Hw s1 l1 R1) as (N & _).
        destruct l1 as [|x l1]; destruct N as (s' & EN & R'); exists (s', s2); unfold on_fst; cbn [fst snd];
          rewrite EN; by eauto.
      * intros [s1 s2] l1 [id a] [R1 [l2 R2]]. cbn [fst snd] in *.
        destruct (HB w' Hw s2 l2 R2) as (_ & _ & F & _ & _). run_from F id.
        exists (s1, s). split; [|eauto]. unfold bind, on_snd. cbn [fst snd]. rewrite E0. by destruct (gb id).
      * intros [s1 s2] l1 [id a] [R1 [l2 R2]]. cbn [fst snd] in *.
        destruct (HB w' Hw s2 l2 R2) as (_ & _ & F & _ & _). run_from F id.
        exists (s1, s). split; [|eauto]. unfold bind, on_snd. cbn [fst snd]. rewrite E0. by destruct (gb id).
    + intros id. run_from Fa id. run_from Fb id. unfold get_not. cbn [qi_from_id without_right].
      unfold bind at 1, on_snd. cbn [fst snd]. rewrite E1.
      destruct (gb id); [exists (sa, s0); split; [done|]; eauto|].
      exists (s, s0). unfold bind, on_fst. cbn [fst snd]. rewrite E0. split; [by destruct (ga id)|]. eauto.
Qed.

Lemma without_left_ok sA sB w A B ga gb la lb : iter_ok sA w A ga la -> iter_ok sB w B gb lb ->
  iter_ok false w (without_left A B) (get_not ga gb) (keep (get_not ga gb) lb).
Proof.
  pose proof Logic.I as E.
  intros [NA GA (RA & IA & HA)] [NB GB (RB & IB & HB)].
  assert (keep (get_not ga gb) lb = omap (fun x => match ga x.1 with None => Some x | Some _ => None end) lb) as ->.
  { apply omap_ext_in. intros [id a] Hin. simpl. unfold get_not. rewrite (GB _ _ Hin). by destruct (ga id). }
  apply (filter_ok w (without_left A B) _ lb _ (fun st l => (exists la, RA st.1 la) /\ RB st.2 l)).
  - done.
  - intros x y. destruct (ga x.1); simpl; [done|]. by intros [= <-].
  - intros id it x Hin. simpl. unfold get_not. rewrite (GB _ _ Hin). destruct (ga id); simpl; [done|]. by intros [= <-].
  - split; [|done]. by exists la.
  - intros w' [sa sb] l Hw [[la' Ra] Rb]. cbn [fst snd] in Ra, Rb.
    destruct (HA w' Hw sa la' Ra) as (_ & _ & Fa & _ & _). destruct (HB w' Hw sb l Rb) as (_ & _ & Fb & Lb & _).
    split; [|split; [|split; [done|done]]].
    + eexists _, _, _. split; [reflexivity|]. split; [reflexivity|]. split_and!.
      * intros [s1 s2] l1 [R1 R2]. cbn [fst snd] in *. destruct (HB w' Hw s2 l1 R2) as (N & _).
        destruct l1 as [|x l1]; destruct N as (s' & EN & R'); exists (s1, s'); unfold on_snd; cbn [fst snd];
          rewrite EN; by eauto.
      * intros [s1 s2] l1 [id a] [[l2 R1] R2]. cbn [fst snd] in *.
        destruct (HA w' Hw s1 l2 R1) as (_ & _ & F & _ & _). run_from F id.
        exists (s, s2). split; [|eauto]. unfold bind, on_fst. cbn [fst snd]. rewrite E0. by destruct (ga id).
      * intros [s1 s2] l1 [id a] [[l2 R1] R2]. cbn [fst snd] in *.
        destruct (HA w' Hw s1 l2 R1) as (_ & _ & F & _ & _). run_from F id.
        exists (s, s2). split; [|eauto]. unfold bind, on_fst. cbn [fst snd]. rewrite E0. by destruct (ga id).
    + intros id. run_from Fa id. run_from Fb id. unfold get_not. cbn [qi_from_id without_left].
      unfold bind at 1, on_fst. cbn [fst snd]. rewrite E0.
      destruct (ga id); [exists (s, sb); split; [done|]; eauto|].
      exists (s, s0). unfold bind, on_snd. cbn [fst snd]. rewrite E1. split; [by destruct (gb id)|]. eauto.
Qed.

Lemma with3_ok sA sB sC w A B C ga gb gc la lb lc : iter_ok sA w A ga la -> iter_ok sB w B gb lb -> iter_ok sC w C gc lc ->
  iter_ok false w (with3 A B C) (get3 ga gb gc) (keep (get3 ga gb gc) la).
Proof.
  pose proof Logic.I as E.
  intros [NA GA (RA & IA & HA)] [NB GB (RB & IB & HB)] [NC GC (RC & IC & HC)].
  assert (keep (get3 ga gb gc) la = omap (fun x => match gb x.1, gc x.1 with
     | Some b, Some c => Some (x.1, I3 x.2 b c) | _, _ => None end) la) as ->.
  { apply omap_ext_in. intros [id a] Hin. simpl. unfold get3. rewrite (GA _ _ Hin).
    destruct (gb id); [|done]. by destruct (gc id). }
  apply (filter_ok w (with3 A B C) _ la _ (fun st l => RA st.1 l /\ (exists lb, RB st.2.1 lb) /\ exists lc, RC st.2.2 lc)).
  - done.
  - intros x y. destruct (gb x.1), (gc x.1); simpl; try done. by intros [= <-].
  - intros id it x Hin. simpl. unfold get3. rewrite (GA _ _ Hin).
    destruct (gb id), (gc id); simpl; try done. by intros [= <-].
  - split_and!; [done|by exists lb|by exists lc].
  - intros w' (sa & sb & sc) l Hw (Ra & [lb' Rb] & [lc' Rc]). cbn [fst snd] in Ra, Rb, Rc.
    destruct (HA w' Hw sa l Ra) as (_ & _ & Fa & La & _). destruct (HB w' Hw sb lb' Rb) as (_ & _ & Fb & _ & _).
    destruct (HC w' Hw sc lc' Rc) as (_ & _ & Fc & _ & _).
    split; [|split; [|split; [done|done]]].
    + eexists _, _, _. split; [reflexivity|]. split; [reflexivity|]. split_and!.
      * intros [s1 s2] l1 [R1 R2]. cbn [fst snd] in *. destruct (HA w' Hw s1 l1 R1) as (N & _).
        destruct l1 as [|x l1]; destruct N as (s' & EN & R'); exists (s', s2); unfold on_fst; cbn [fst snd];
          rewrite EN; by eauto.
      * intros (s1 & s2 & s3) l1 [id a] (R1 & [l2 R2] & [l3 R3]). cbn [fst snd] in *.
        destruct (HB w' Hw s2 l2 R2) as (_ & _ & F2 & _ & _). destruct (HC w' Hw s3 l3 R3) as (_ & _ & F3 & _ & _).
        run_from F2 id. run_from F3 id.
        unfold bind, on_snd, on_fst. cbn [fst snd]. rewrite E0.
        destruct (gb id); [|exists (s1, (s, s3)); split; [done|]; cbn [fst snd]; (split_and!; by eauto)].
        cbn [fst snd]. rewrite E1. exists (s1, (s, s0)). cbn [fst snd]. destruct (gc id); (split_and!; by eauto).
      * intros (s1 & s2 & s3) l1 [id a] (R1 & [l2 R2] & [l3 R3]). cbn [fst snd] in *.
        destruct (HB w' Hw s2 l2 R2) as (_ & _ & F2 & _ & _). destruct (HC w' Hw s3 l3 R3) as (_ & _ & F3 & _ & _).
        run_from F2 id. run_from F3 id.
        unfold bind, on_snd, on_fst. cbn [fst snd]. rewrite E0.
        destruct (gb id); [|exists (s1, (s, s3)); split; [done|]; cbn [fst snd]; (split_and!; by eauto)].
        cbn [fst snd]. rewrite E1. exists (s1, (s, s0)). cbn [fst snd]. destruct (gc id); (split_and!; by eauto).
    + intros id. run_from Fa id. run_from Fb id. run_from Fc id. unfold get3. cbn [qi_from_id with3].
      unfold bind, on_fst, on_snd. cbn [fst snd]. rewrite E0.
      destruct (ga id); [|exists (s, (sb, sc)); split; [done|]; cbn [fst snd]; (split_and!; by eauto)].
      cbn [fst snd]. rewrite E1.
      destruct (gb id); [|exists (s, (s0, sc)); split; [done|]; cbn [fst snd]; (split_and!; by eauto)].
      cbn [fst snd]. rewrite E2. exists (s, (s0, s1)). cbn [fst snd]. destruct (gc id); (split_and!; by eauto).
Qed.

Lemma with4_ok sA sB sC sD w A B C D ga gb gc gd la lb lc ld :
  iter_ok sA w A ga la -> iter_ok sB w B gb lb -> iter_ok sC w C gc lc -> iter_ok sD w D gd ld ->
  iter_ok false w (with4 A B C D) (get4 ga gb gc gd) (keep (get4 ga gb gc gd) la).
Proof.
  pose proof Logic.I as E.
  intros [NA GA (RA & IA & HA)] [NB GB (RB & IB & HB)] [NC GC (RC & IC & HC)] [ND GD (RD & ID & HD)].
  assert (keep (get4 ga gb gc gd) la = omap (fun x => match gb x.1, gc x.1, gd x.1 with
     | Some b, Some c, Some d => Some (x.1, I4 x.2 b c d) | _, _, _ => None end) la) as ->.
  { apply omap_ext_in. intros [id a] Hin. simpl. unfold get4. rewrite (GA _ _ Hin).
    destruct (gb id), (gc id), (gd id); done. }
  apply (filter_ok w (with4 A B C D) _ la _ (fun st l => RA st.1 l /\ (exists lb, RB st.2.1 lb) /\
     (exists lc, RC st.2.2.1 lc) /\ (exists ld, RD st.2.2.2 ld))).
  - done.
  - intros x y. destruct (gb x.1), (gc x.1), (gd x.1); simpl; try done. by intros [= <-].
  - intros id it x Hin. simpl. unfold get4. rewrite (GA _ _ Hin).
    destruct (gb id), (gc id), (gd id); simpl; try done. by intros [= <-].
  - split_and!; [done|by exists lb|by exists lc|by exists ld].
  - intros w' (sa & sb & sc & sd) l Hw (Ra & [lb' Rb] & [lc' Rc] & [ld' Rd]). cbn [fst snd] in Ra, Rb, Rc, Rd.
    destruct (HA w' Hw sa l Ra) as (_ & _ & Fa & La & _). destruct (HB w' Hw sb lb' Rb) as (_ & _ & Fb & _ & _).
    destruct (HC w' Hw sc lc' Rc) as (_ & _ & Fc & _ & _). destruct (HD w' Hw sd ld' Rd) as (_ & _ & Fd & _ & _).
    split; [|split; [|split; [done|done]]].
    + eexists _, _, _. split; [reflexivity|]. split; [reflexivity|]. split_and!.
      * intros [s1 s2] l1 [R1 R2]. cbn [fst snd] in *. destruct (HA w' Hw s1 l1 R1) as (N & _).
        destruct l1 as [|x l1]; destruct N as (s' & EN & R'); exists (s', s2); unfold on_fst; cbn [fst snd];
          rewrite EN; by eauto.
      * intros (s1 & s2 & s3 & s4) l1 [id a] (R1 & [l2 R2] & [l3 R3] & [l4 R4]). cbn [fst snd] in *.
        destruct (HB w' Hw s2 l2 R2) as (_ & _ & F2 & _ & _). destruct (HC w' Hw s3 l3 R3) as (_ & _ & F3 & _ & _).
        destruct (HD w' Hw s4 l4 R4) as (_ & _ & F4 & _ & _).
        run_from F2 id. run_from F3 id. run_from F4 id.
        unfold bind, on_snd, on_fst. cbn [fst snd]. rewrite E0.
        destruct (gb id); [|exists (s1, (s, (s3, s4))); split; [done|]; cbn [fst snd]; (split_and!; by eauto)].
        cbn [fst snd]. rewrite E1.
        destruct (gc id); [|exists (s1, (s, (s0, s4))); split; [done|]; cbn [fst snd]; (split_and!; by eauto)].
        cbn [fst snd]. rewrite E2. exists (s1, (s, (s0, s5))). cbn [fst snd]. destruct (gd id); (split_and!; by eauto).
      * intros (s1 & s2 & s3 & s4) l1 [id a] (R1 & [l2 R2] & [l3 R3] & [l4 R4]). cbn [fst snd] in *.
        destruct (HB w' Hw s2 l2 R2) as (_ & _ & F2 & _ & _). destruct (HC w' Hw s3 l3 R3) as (_ & _ & F3 & _ & _).
        destruct (HD w' Hw s4 l4 R4) as (_ & _ & F4 & _ & _).
        run_from F2 id. run_from F3 id. run_from F4 id.
        unfold bind, on_snd, on_fst. cbn [fst snd]. rewrite E0.
        destruct (gb id); [|exists (s1, (s, (s3, s4))); split; [done|]; cbn [fst snd]; (split_and!; by eauto)].
        cbn [fst snd]. rewrite E1.
        destruct (gc id); [|exists (s1, (s, (s0, s4))); split; [done|]; cbn [fst snd]; (split_and!; by eauto)].
        cbn [fst snd]. rewrite E2. exists (s1, (s, (s0, s5))). cbn [fst snd]. destruct (gd id); (split_and!; by eauto).
    + intros id. run_from Fa id. run_from Fb id. run_from Fc id. run_from Fd id. unfold get4. cbn [qi_from_id with4].
      unfold bind, on_fst, on_snd. cbn [fst snd]. rewrite E0.
      destruct (ga id); [|exists (s, (sb, (sc, sd))); split; [done|]; cbn [fst snd]; (split_and!; by eauto)].
      cbn [fst snd]. rewrite E1.
      destruct (gb id); [|exists (s, (s0, (sc, sd))); split; [done|]; cbn [fst snd]; (split_and!; by eauto)].
      cbn [fst snd]. rewrite E2.
      destruct (gc id); [|exists (s, (s0, (s1, sd))); split; [done|]; cbn [fst snd]; (split_and!; by eauto)].
      cbn [fst snd]. rewrite E3. exists (s, (s0, (s1, s2))). cbn [fst snd]. destruct (gd id); (split_and!; by eauto).
Qed.

Lemma with5_ok sA sB sC sD sE w A B C D E ga gb gc gd ge la lb lc ld le :
  iter_ok sA w A ga la -> iter_ok sB w B gb lb -> iter_ok sC w C gc lc -> iter_ok sD w D gd ld -> iter_ok sE w E ge le ->
  iter_ok false w (with5 A B C D E) (get5 ga gb gc gd ge) (keep (get5 ga gb gc gd ge) la).
Proof.
  intros [NA GA (RA & IA & HA)] [NB GB (RB & IB & HB)] [NC GC (RC & IC & HC)] [ND GD (RD & ID & HD)] [NE GE (RE & IE & HE)].
  assert (keep (get5 ga gb gc gd ge) la = omap (fun x => match gb x.1, gc x.1, gd x.1, ge x.1 with
     | Some b, Some c, Some d, Some e => Some (x.1, I5 x.2 b c d e) | _, _, _, _ => None end) la) as ->.
  { apply omap_ext_in. intros [id a] Hin. simpl. unfold get5. rewrite (GA _ _ Hin).
    destruct (gb id), (gc id), (gd id), (ge id); done. }
  apply (filter_ok w (with5 A B C D E) _ la _ (fun st l => RA st.1 l /\ (exists lb, RB st.2.1 lb) /\
     (exists lc, RC st.2.2.1 lc) /\ (exists ld, RD st.2.2.2.1 ld) /\ (exists le, RE st.2.2.2.2 le))).
  - done.
  - intros x y. destruct (gb x.1), (gc x.1), (gd x.1), (ge x.1); simpl; try done. by intros [= <-].
  - intros id it x Hin. simpl. unfold get5. rewrite (GA _ _ Hin).
    destruct (gb id), (gc id), (gd id), (ge id); simpl; try done. by intros [= <-].
  - split_and!; [done|by exists lb|by exists lc|by exists ld|by exists le].
  - intros w' (sa & sb & sc & sd & se) l Hw (Ra & [lb' Rb] & [lc' Rc] & [ld' Rd] & [le' Re]).
    cbn [fst snd] in Ra, Rb, Rc, Rd, Re.
    destruct (HA w' Hw sa l Ra) as (_ & _ & Fa & La & _). destruct (HB w' Hw sb lb' Rb) as (_ & _ & Fb & _ & _).
    destruct (HC w' Hw sc lc' Rc) as (_ & _ & Fc & _ & _). destruct (HD w' Hw sd ld' Rd) as (_ & _ & Fd & _ & _).
    destruct (HE w' Hw se le' Re) as (_ & _ & Fe & _ & _).
    split; [|split; [|split; [done|done]]].
    + eexists _, _, _. split; [reflexivity|]. split; [reflexivity|]. split_and!.
      * intros [s1 s2] l1 [R1 R2]. cbn [fst snd] in *. destruct (HA w' Hw s1 l1 R1) as (N & _).
        destruct l1 as [|x l1]; destruct N as (s' & E' & R'); exists (s', s2); unfold on_fst; cbn [fst snd];
          rewrite E'; by eauto.
      * intros (s1 & s2 & s3 & s4 & s5) l1 [id a] (R1 & [l2 R2] & [l3 R3] & [l4 R4] & [l5 R5]). cbn [fst snd] in *.
        destruct (HB w' Hw s2 l2 R2) as (_ & _ & F2 & _ & _). destruct (HC w' Hw s3 l3 R3) as (_ & _ & F3 & _ & _).
        destruct (HD w' Hw s4 l4 R4) as (_ & _ & F4 & _ & _). destruct (HE w' Hw s5 l5 R5) as (_ & _ & F5 & _ & _).
        destruct (F2 id) as (u2 & E2 & Q2'). destruct (F3 id) as (u3 & E3 & Q3').
        destruct (F4 id) as (u4 & E4 & Q4'). destruct (F5 id) as (u5 & E5 & Q5').
        unfold bind, on_snd, on_fst. cbn [fst snd]. rewrite E2.
        destruct (gb id); [|exists (s1, (u2, (s3, (s4, s5)))); split; [done|]; cbn [fst snd]; (split_and!; by eauto)].
        cbn [fst snd]. rewrite E3.
        destruct (gc id); [|exists (s1, (u2, (u3, (s4, s5)))); split; [done|]; cbn [fst snd]; (split_and!; by eauto)].
        cbn [fst snd]. rewrite E4.
        destruct (gd id); [|exists (s1, (u2, (u3, (u4, s5)))); split; [done|]; cbn [fst snd]; (split_and!; by eauto)].
        cbn [fst snd]. rewrite E5. exists (s1, (u2, (u3, (u4, u5)))). cbn [fst snd]. destruct (ge id); (split_and!; by eauto).
      * intros (s1 & s2 & s3 & s4 & s5) l1 [id a] (R1 & [l2 R2] & [l3 R3] & [l4 R4] & [l5 R5]). cbn [fst snd] in *.
        destruct (HB w' Hw s2 l2 R2) as (_ & _ & F2 & _ & _). destruct (HC w' Hw s3 l3 R3) as (_ & _ & F3 & _ & _).
        destruct (HD w' Hw s4 l4 R4) as (_ & _ & F4 & _ & _). destruct (HE w' Hw s5 l5 R5) as (_ & _ & F5 & _ & _).
        destruct (F2 id) as (u2 & E2 & Q2'). destruct (F3 id) as (u3 & E3 & Q3').
        destruct (F4 id) as (u4 & E4 & Q4'). destruct (F5 id) as (u5 & E5 & Q5').
        unfold bind, on_snd, on_fst. cbn [fst snd]. rewrite E2.
        destruct (gb id); [|exists (s1, (u2, (s3, (s4, s5)))); split; [done|]; cbn [fst snd]; (split_and!; by eauto)].
        cbn [fst snd]. rewrite E3.
        destruct (gc id); [|exists (s1, (u2, (u3, (s4, s5)))); split; [done|]; cbn [fst snd]; (split_and!; by eauto)].
        cbn [fst snd]. rewrite E4.
        destruct (gd id); [|exists (s1, (u2, (u3, (u4, s5)))); split; [done|]; cbn [fst snd]; (split_and!; by eauto)].
        cbn [fst snd]. rewrite E5. exists (s1, (u2, (u3, (u4, u5)))). cbn [fst snd]. destruct (ge id); (split_and!; by eauto).
    + intros id. destruct (Fa id) as (u1 & E1 & Q1'). destruct (Fb id) as (u2 & E2 & Q2'). destruct (Fc id) as (u3 & E3 & Q3').
      destruct (Fd id) as (u4 & E4 & Q4'). destruct (Fe id) as (u5 & E5 & Q5'). unfold get5. cbn [qi_from_id with5].
      unfold bind, on_fst, on_snd. cbn [fst snd]. rewrite E1.
      destruct (ga id); [|exists (u1, (sb, (sc, (sd, se)))); split; [done|]; cbn [fst snd]; (split_and!; by eauto)].
      cbn [fst snd]. rewrite E2.
      destruct (gb id); [|exists (u1, (u2, (sc, (sd, se)))); split; [done|]; cbn [fst snd]; (split_and!; by eauto)].
      cbn [fst snd]. rewrite E3.
      destruct (gc id); [|exists (u1, (u2, (u3, (sd, se)))); split; [done|]; cbn [fst snd]; (split_and!; by eauto)].
      cbn [fst snd]. rewrite E4.
      destruct (gd id); [|exists (u1, (u2, (u3, (u4, se)))); split; [done|]; cbn [fst snd]; (split_and!; by eauto)].
      cbn [fst snd]. rewrite E5. exists (u1, (u2, (u3, (u4, u5)))). cbn [fst snd]. destruct (ge id); (split_and!; by eauto).
Qed.

End query.

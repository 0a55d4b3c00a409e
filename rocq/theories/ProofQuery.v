(** Query iterators: what they yield. *)
From stdpp Require Import prelude list gmap.
From Verif Require Import Base Api ModelSparse ModelEntity ModelGroup ModelWorld ModelQuery
  Spec ProofSparse ProofEntity ProofGroup ProofWorld.

(** [while_some] over a driver that yields a known list. *)
Fixpoint first_hit {X Y} (fb : X -> option Y) (l : list X) : option (Y * list X) :=
  match l with
  | [] => None
  | x :: l' => match fb x with Some y => Some (y, l') | None => first_hit fb l' end
  end.
Lemma first_hit_omap {X Y} (fb : X -> option Y) l :
  omap fb l = match first_hit fb l with Some (y, l') => y :: omap fb l' | None => [] end.
Proof. induction l as [|x l IH]; [done|]. simpl. by destruct (fb x). Qed.
Lemma first_hit_fmap {X Y Z} (g : Y -> Z) (fb : X -> option Y) (l : list X) :
  first_hit (fun x => g <$> fb x) l = (fun p => (g p.1, p.2)) <$> first_hit fb l.
Proof. induction l as [|x l IH]; [done|]. simpl. by destruct (fb x). Qed.

Lemma omap_length_le {X Y} (fb : X -> option Y) (l : list X) : length (omap fb l) <= length l.
Proof. induction l as [|x l IH]; [done|]. simpl. destruct (fb x); simpl; [by apply le_n_S|by apply le_S]. Qed.

Lemma NoDup_take {X} n (l : list X) : NoDup l -> NoDup (take n l).
Proof. intros H. rewrite <- (take_drop n l) in H. by apply NoDup_app in H as [? _]. Qed.

Lemma while_spec {S X Y} (next : M S (option X)) (body : X -> M S (option Y)) (fb : X -> option Y)
    (I : S -> list X -> Prop) fuel s l :
  (forall s l, I s l -> match l with
     | [] => exists s', next s = (Ret None, s') /\ I s' []
     | x :: l' => exists s', next s = (Ret (Some x), s') /\ I s' l'
     end) ->
  (forall s l x, I s l -> exists s', body x s = (Ret (fb x), s') /\ I s' l) ->
  I s l -> length l < fuel ->
  match first_hit fb l with
  | Some (y, l') => exists s', while_some fuel next body s = (Ret (Some y), s') /\ I s' l'
  | None => exists s', while_some fuel next body s = (Ret None, s') /\ I s' []
  end.
Proof.
  intros Hn Hb. revert s l. induction fuel as [|fuel IH]; intros s l HI Hf; [lia|].
  cbn [while_some]. pose proof (Hn s l HI) as H1. destruct l as [|x l]; simpl.
  - destruct H1 as (s1 & E1 & I1). rewrite (bind_ret _ _ _ _ _ E1). exists s1. done.
  - destruct H1 as (s1 & E1 & I1). rewrite (bind_ret _ _ _ _ _ E1).
    destruct (Hb s1 l x I1) as (s2 & E2 & I2). rewrite (bind_ret _ _ _ _ _ E2).
    destruct (fb x) as [y|]; [exists s2; done|]. apply IH; [done|]. simpl in Hf. lia.
Qed.

Section query.
Context {V : Type}.
Notation world := (world V).
Notation storage := (storage V).
Implicit Types (w : world) (aw : aworld V) (J : qiter V).

(** ** What an iterator may look at *)
Definition sh_st (st st' : storage) : Prop :=
  st_ty st' = st_ty st /\ indices (st_set st') = indices (st_set st) /\
  entities (st_set st') = entities (st_set st) /\ length (sdata (st_set st')) = length (sdata (st_set st)).
Definition shape w w' : Prop :=
  w_groups w' = w_groups w /\
  forall t, match w_comps w !! t, w_comps w' !! t with
            | Some st, Some st' => sh_st st st'
            | None, None => True
            | _, _ => False
            end.
Lemma shape_refl w : shape w w.
Proof. split; [done|]. intros t. by destruct (w_comps w !! t). Qed.
Lemma shape_trans w1 w2 w3 : shape w1 w2 -> shape w2 w3 -> shape w1 w3.
Proof.
  intros [G1 S1] [G2 S2]. split; [congruence|]. intros t. specialize (S1 t). specialize (S2 t).
  destruct (w_comps w1 !! t), (w_comps w2 !! t), (w_comps w3 !! t); try done.
  destruct S1 as (A1 & B1 & C1 & D1), S2 as (A2 & B2 & C2 & D2). split_and!; congruence.
Qed.
Lemma shape_Some w w' t st : shape w w' -> w_comps w !! t = Some st ->
  exists st', w_comps w' !! t = Some st' /\ sh_st st st'.
Proof. intros [_ H] E. specialize (H t). rewrite E in H. destruct (w_comps w' !! t); [eauto|done]. Qed.
Lemma sh_index st st' e : sh_st st st' -> ss_get_index (st_set st') e = ss_get_index (st_set st) e.
Proof. intros (_ & H & _). unfold ss_get_index. by rewrite H. Qed.
Lemma sh_wf st st' : sh_st st st' -> ss_wf (st_set st) -> ss_wf (st_set st').
Proof.
  intros H W. pose proof H as (_ & Hi & He & Hl). split.
  - rewrite He, Hl. apply W.
  - intros e i. rewrite (sh_index _ _ e H), He. apply W.
  - rewrite Hi. apply W.
Qed.

Definition wwf w : Prop := forall t st, w_comps w !! t = Some st -> ss_wf (st_set st).

(** position of the component of type [t] of [id] *)
Definition loc w (t id : nat) : option nat :=
  match w_comps w !! t with Some st => ss_get_index (st_set st) id | None => None end.
Lemma loc_shape w w' t id : shape w w' -> loc w' t id = loc w t id.
Proof.
  intros [_ H]. unfold loc. specialize (H t). destruct (w_comps w !! t), (w_comps w' !! t); try done.
  by apply sh_index.
Qed.

(** ** Correct iterators: yield [l], answer [get] *)
Record iter_ok (sz : bool) w J (get : nat -> option item) (l : list (nat * item)) : Prop := {
  io_nodup : NoDup l.*1;
  io_get : forall id it, (id, it) ∈ l -> get id = Some it;
  io_run : exists Rst : qi_st J -> list (nat * item) -> Prop,
    Rst (qi_init J) l /\
    forall w', shape w w' -> forall st l, Rst st l ->
      (match l with
       | [] => exists st', qi_next_id J w' st = (Ret None, st') /\ Rst st' []
       | x :: l' => exists st', qi_next_id J w' st = (Ret (Some x), st') /\ Rst st' l'
       end) /\
      (match l with
       | [] => exists st', qi_next J w' st = (Ret None, st') /\ Rst st' []
       | x :: l' => exists st', qi_next J w' st = (Ret (Some x.2), st') /\ Rst st' l'
       end) /\
      (forall id, exists st', qi_from_id J w' id st = (Ret (get id), st') /\ Rst st' l) /\
      length l <= qi_fuel J w' st /\
      qi_hint J w' st = Ret (if sz then Some (length l) else None)
}.

Lemma fst_omap {X Y} (fb : nat * X -> option (nat * Y)) l :
  (forall x y, fb x = Some y -> y.1 = x.1) -> NoDup l.*1 -> NoDup (omap fb l).*1.
Proof.
  intros Hf ND. induction l as [|x l IH]; simpl; [constructor|].
  simpl in ND. apply NoDup_cons in ND as [Hn ND].
  destruct (fb x) as [y|] eqn:E; [|by apply IH]. simpl. constructor; [|by apply IH].
  intros Hin. apply Hn. apply elem_of_list_fmap in Hin as (z & Hz & Hin).
  apply elem_of_list_omap in Hin as (x' & Hx' & E'). apply elem_of_list_fmap. exists x'.
  split; [|done]. rewrite <- (Hf _ _ E), Hz. by apply Hf.
Qed.

(** A combinator driven by one iterator: generic lemma.  [Drv] says which
    list the driver will still yield in a state. *)
Lemma filter_ok w J (get : nat -> option item) (l : list (nat * item))
    (fb : nat * item -> option (nat * item)) (I : qi_st J -> list (nat * item) -> Prop) :
  NoDup l.*1 ->
  (forall x y, fb x = Some y -> y.1 = x.1) ->
  (forall id it x, (id, x) ∈ l -> fb (id, x) = Some (id, it) -> get id = Some it) ->
  I (qi_init J) l ->
  (forall w' st l, shape w w' -> I st l ->
     (exists (next : M (qi_st J) (option (nat * item))) (body : nat * item -> M (qi_st J) (option (nat * item)))
         (body' : nat * item -> M (qi_st J) (option item)),
       qi_next_id J w' st = while_some (S (qi_fuel J w' st)) next body st /\
       qi_next J w' st = while_some (S (qi_fuel J w' st)) next body' st /\
       (forall s l, I s l -> match l with
          | [] => exists s', next s = (Ret None, s') /\ I s' []
          | x :: l' => exists s', next s = (Ret (Some x), s') /\ I s' l'
          end) /\
       (forall s l x, I s l -> exists s', body x s = (Ret (fb x), s') /\ I s' l) /\
       (forall s l x, I s l -> exists s', body' x s = (Ret (snd <$> fb x), s') /\ I s' l)) /\
     (forall id, exists st', qi_from_id J w' id st = (Ret (get id), st') /\ I st' l) /\
     length l <= qi_fuel J w' st /\ qi_hint J w' st = Ret None) ->
  iter_ok false w J get (omap fb l).
Proof.
  intros ND Hf Hg HI0 H. split.
  - by apply fst_omap.
  - intros id it Hin. apply elem_of_list_omap in Hin as ((id' & x) & Hx & E).
    pose proof (Hf _ _ E) as Hid. simpl in Hid. subst id'. by eapply Hg.
  - exists (fun st l => exists la, I st la /\ l = omap fb la). split; [by exists l|].
    intros w' Hw st l' (la & HI & ->).
    destruct (H w' st la Hw HI) as ((next & body & body' & E1 & E2 & Hn & Hb & Hb') & Hfr & Hlen & Hh).
    assert (length la < S (qi_fuel J w' st)) as Hlt by (apply Nat.lt_succ_r; exact Hlen).
    split_and!.
    + rewrite E1. pose proof (while_spec next body fb I (S (qi_fuel J w' st)) st la Hn Hb HI Hlt) as W.
      rewrite first_hit_omap. destruct (first_hit fb la) as [[y la']|].
      * destruct W as (s' & W & I'). exists s'. eauto.
      * destruct W as (s' & W & I'). exists s'. split; [done|]. by exists [].
    + rewrite E2. pose proof (while_spec next body' (fun x => snd <$> fb x) I (S (qi_fuel J w' st)) st la Hn Hb' HI Hlt) as W.
      rewrite first_hit_omap. rewrite first_hit_fmap in W. destruct (first_hit fb la) as [[y la']|]; simpl in W.
      * destruct W as (s' & W & I'). exists s'. eauto.
      * destruct W as (s' & W & I'). exists s'. split; [done|]. by exists [].
    + intros id. destruct (Hfr id) as (st' & E & I'). exists st'. split; [done|]. by exists la.
    + etrans; [|exact Hlen]. apply omap_length_le.
    + done.
Qed.

(** ** Leaves *)
Lemma ptr_Some {S} w t st (s : S) : w_comps w !! t = Some st -> ptr w t s = (Ret (st_set st), s).
Proof. intros H. unfold ptr. by rewrite H. Qed.
Lemma data_unchecked_ret {S} (s : sset V) i (x : S) : i < length (sdata s) -> data_unchecked s i x = (Ret i, x).
Proof. intros H. unfold data_unchecked. apply Nat.ltb_lt in H. by rewrite H. Qed.
Lemma ent_unchecked_ret {S} (s : sset V) i e (x : S) : entities s !! i = Some e -> ent_unchecked s i x = (Ret e, x).
Proof. intros H. unfold ent_unchecked. by rewrite H. Qed.

Definition ref_items (m : bool) (t : nat) (es : list nat) : list (nat * item) :=
  imap (fun i e => (e, IRef m t i)) es.
Lemma drop_S {A} (l : list A) i x : l !! i = Some x -> drop i l = x :: drop (S i) l.
Proof. apply drop_S. Qed.
Lemma imap_fst {A B} (f : nat -> A -> A * B) (l : list A) : (forall i x, (f i x).1 = x) -> (imap f l).*1 = l.
Proof.
  intros H. apply list_eq. intros i. rewrite list_lookup_fmap, list_lookup_imap.
  destruct (l !! i); simpl; [by rewrite H|done].
Qed.

Lemma iter_ref_ok w m t st : w_comps w !! t = Some st -> ss_wf (st_set st) ->
  iter_ok true w (iter_ref m t) (fun id => IRef m t <$> loc w t id) (ref_items m t (entities (st_set st))).
Proof.
  intros Hst W. set (L := ref_items m t (entities (st_set st))).
  assert (forall i e, entities (st_set st) !! i = Some e <-> L !! i = Some (e, IRef m t i)) as HL.
  { intros i e. unfold L, ref_items. rewrite list_lookup_imap.
    destruct (entities (st_set st) !! i); simpl; split; congruence. }
  assert (length L = length (entities (st_set st))) as HLl by apply imap_length.
  split.
  - unfold L, ref_items. rewrite imap_fst by done. by apply wf_nodup.
  - intros id it Hin. apply elem_of_list_lookup in Hin as [i Hi]. unfold L, ref_items in Hi.
    rewrite list_lookup_imap in Hi. destruct (entities (st_set st) !! i) eqn:E; simpl in Hi; [|done].
    injection Hi as -> <-. unfold loc. rewrite Hst. apply (wf_pos _ W) in E. by rewrite E.
  - exists (fun (i : nat) l => l = drop i L /\ i <= length L). split; [split; [done|apply Nat.le_0_l]|].
    intros w' Hw i l [-> Hle]. cbn [qi_st iter_ref iter_full iter_part iter_non] in i.
    destruct (shape_Some _ _ _ _ Hw Hst) as (st' & Hst' & Sh). pose proof (sh_wf _ _ Sh W) as W'.
    pose proof Sh as (_ & Hind & Hent & Hdat).
    assert (ss_len (st_set st') = length L) as Hlen by (unfold ss_len; congruence).
    split_and!.
    + destruct (decide (i < length L)) as [Hlt|Hge].
      * destruct (lookup_lt_is_Some_2 (entities (st_set st)) i) as [e He]; [lia|].
        rewrite (drop_S L i (e, IRef m t i)) by (by apply HL). exists (i + 1). split.
        -- cbn [qi_next_id iter_ref]. rewrite bind_get. rewrite (bind_ret _ _ _ _ _ (ptr_Some _ _ _ _ Hst')).
           rewrite Hlen. apply Nat.ltb_lt in Hlt as ->.
           rewrite (bind_ret _ _ _ _ _ (ent_unchecked_ret (st_set st') i e i ltac:(congruence))).
           rewrite (bind_ret _ _ _ _ _ (data_unchecked_ret (st_set st') i i
             ltac:(rewrite <- (wf_len _ W'); apply lookup_lt_Some in He; rewrite Hent; lia))).
           by rewrite bind_put.
        -- rewrite Nat.add_1_r. split; [done|lia].
      * rewrite drop_ge by lia. exists i. split; [|split; [by rewrite drop_ge by lia|lia]].
        cbn [qi_next_id iter_ref]. rewrite bind_get. rewrite (bind_ret _ _ _ _ _ (ptr_Some _ _ _ _ Hst')).
        rewrite Hlen. apply Nat.ltb_nlt in Hge as ->. done.
    + destruct (decide (i < length L)) as [Hlt|Hge].
      * destruct (lookup_lt_is_Some_2 (entities (st_set st)) i) as [e He]; [lia|].
        rewrite (drop_S L i (e, IRef m t i)) by (by apply HL). exists (i + 1). split.
        -- cbn [qi_next iter_ref]. rewrite bind_get. rewrite (bind_ret _ _ _ _ _ (ptr_Some _ _ _ _ Hst')).
           rewrite Hlen. apply Nat.ltb_lt in Hlt as ->.
           rewrite (bind_ret _ _ _ _ _ (data_unchecked_ret (st_set st') i i
             ltac:(rewrite <- (wf_len _ W'); apply lookup_lt_Some in He; rewrite Hent; lia))).
           by rewrite bind_put.
        -- rewrite Nat.add_1_r. split; [done|lia].
      * rewrite drop_ge by lia. exists i. split; [|split; [by rewrite drop_ge by lia|lia]].
        cbn [qi_next iter_ref]. rewrite bind_get. rewrite (bind_ret _ _ _ _ _ (ptr_Some _ _ _ _ Hst')).
        rewrite Hlen. apply Nat.ltb_nlt in Hge as ->. done.
    + intros id. exists i. split; [|done]. cbn [qi_from_id iter_ref].
      rewrite (bind_ret _ _ _ _ _ (ptr_Some _ _ _ _ Hst')).
      rewrite (get_loc_wf _ _ W'), bind_lift. unfold ret. unfold loc. rewrite Hst.
      by rewrite (sh_index _ _ _ Sh).
    + rewrite drop_length. cbn [qi_fuel iter_ref]. unfold st_count. rewrite Hst', Hlen. lia.
    + cbn [qi_hint iter_ref]. unfold st_count, sub_hint. rewrite Hst', Hlen, drop_length.
      destruct (Nat.ltb_spec (length L) i); [lia|done].
Qed.

(** ** Owning groups *)
Definition pair_loc w (ma mb : bool) (a b id : nat) : option item :=
  match loc w a id, loc w b id with
  | Some i, Some j => Some (I2 (IRef ma a i) (IRef mb b j))
  | _, _ => None
  end.

Definition full_items (ma mb : bool) (a b : nat) (es : list nat) : list (nat * item) :=
  imap (fun i e => (e, I2 (IRef ma a i) (IRef mb b i))) es.

Lemma pair_from_id w w' ma mb a b sa sb id (i : nat) : shape w w' ->
  w_comps w !! a = Some sa -> w_comps w !! b = Some sb -> ss_wf (st_set sa) -> ss_wf (st_set sb) ->
  (let! sa := ptr w' a in
    let! sb := ptr w' b in
    let! oa := lift (ss_get_loc sa id) in
    match oa with
    | None => ret None
    | Some ia =>
        let! ob := lift (ss_get_loc sb id) in
        match ob with
        | None => ret None
        | Some ib => ret (Some (I2 (IRef ma a ia) (IRef mb b ib)))
        end
    end) i = (Ret (pair_loc w ma mb a b id), i).
Proof.
  intros Hw Ha Hb Wa Wb.
  destruct (shape_Some _ _ _ _ Hw Ha) as (sa' & Ha' & Sa). destruct (shape_Some _ _ _ _ Hw Hb) as (sb' & Hb' & Sb).
  rewrite (bind_ret _ _ _ _ _ (ptr_Some _ _ _ _ Ha')). rewrite (bind_ret _ _ _ _ _ (ptr_Some _ _ _ _ Hb')).
  rewrite (get_loc_wf _ _ (sh_wf _ _ Sa Wa)), bind_lift. unfold pair_loc, loc. rewrite Ha, Hb.
  rewrite (sh_index _ _ _ Sa). destruct (ss_get_index (st_set sa) id); [|done].
  rewrite (get_loc_wf _ _ (sh_wf _ _ Sb Wb)), bind_lift. rewrite (sh_index _ _ _ Sb).
  by destruct (ss_get_index (st_set sb) id).
Qed.

Lemma iter_full_ok w ma mb a b sa sb len mem : w_comps w !! a = Some sa -> w_comps w !! b = Some sb ->
  ss_wf (st_set sa) -> ss_wf (st_set sb) -> full_ok len (st_set sa) (st_set sb) mem ->
  iter_ok true w (iter_full ma mb a b len) (pair_loc w ma mb a b)
    (full_items ma mb a b (take len (entities (st_set sa)))).
Proof.
  intros Ha Hb Wa Wb (L1 & L2 & T & _).
  set (es := take len (entities (st_set sa))). set (L := full_items ma mb a b es).
  assert (length es = len) as Hel by (unfold es; rewrite take_length; lia).
  assert (length L = len) as HLl by (unfold L, full_items; by rewrite imap_length).
  assert (forall i, i < len -> exists e, entities (st_set sa) !! i = Some e /\ entities (st_set sb) !! i = Some e /\
     L !! i = Some (e, I2 (IRef ma a i) (IRef mb b i))) as HL.
  { intros i Hi. destruct (lookup_lt_is_Some_2 (entities (st_set sa)) i) as [e He]; [lia|]. exists e.
    split; [done|]. assert (es !! i = Some e) as Hes by (unfold es; by rewrite lookup_take).
    split.
    - unfold es in Hes. rewrite T, lookup_take in Hes; done.
    - unfold L, full_items. rewrite list_lookup_imap, Hes. done. }
  split.
  - unfold L, full_items. rewrite imap_fst by done. unfold es. apply NoDup_take. by apply wf_nodup.
  - intros id it Hin. apply elem_of_list_lookup in Hin as [i Hi].
    assert (i < len) as Hlt by (apply lookup_lt_Some in Hi; lia).
    destruct (HL i Hlt) as (e & Ea & Eb & El). rewrite El in Hi. injection Hi as <- <-.
    unfold pair_loc, loc. rewrite Ha, Hb. apply (wf_pos _ Wa) in Ea. apply (wf_pos _ Wb) in Eb. by rewrite Ea, Eb.
  - exists (fun (i : nat) l => l = drop i L /\ i <= length L). split; [split; [done|apply Nat.le_0_l]|].
    intros w' Hw i l [-> Hle]. cbn [qi_st iter_ref iter_full iter_part iter_non] in i.
    destruct (shape_Some _ _ _ _ Hw Ha) as (sa' & Ha' & Sa). destruct (shape_Some _ _ _ _ Hw Hb) as (sb' & Hb' & Sb).
    pose proof (sh_wf _ _ Sa Wa) as Wa'. pose proof (sh_wf _ _ Sb Wb) as Wb'.
    pose proof Sa as (_ & _ & Hea & _). pose proof Sb as (_ & _ & Heb & _).
    split_and!.
    + destruct (decide (i < len)) as [Hlt|Hge].
      * destruct (HL i Hlt) as (e & Ea & Eb & El). rewrite (drop_S _ _ _ El). exists (i + 1). split.
        -- cbn [qi_next_id iter_full]. rewrite bind_get. apply Nat.ltb_lt in Hlt as ->.
           rewrite (bind_ret _ _ _ _ _ (ptr_Some _ _ _ _ Ha')), (bind_ret _ _ _ _ _ (ptr_Some _ _ _ _ Hb')).
           rewrite (bind_ret _ _ _ _ _ (ent_unchecked_ret (st_set sa') i e i ltac:(congruence))).
           rewrite (bind_ret _ _ _ _ _ (data_unchecked_ret (st_set sa') i i
             ltac:(rewrite <- (wf_len _ Wa'); apply lookup_lt_Some in Ea; rewrite Hea; lia))).
           rewrite (bind_ret _ _ _ _ _ (data_unchecked_ret (st_set sb') i i
             ltac:(rewrite <- (wf_len _ Wb'); apply lookup_lt_Some in Eb; rewrite Heb; lia))).
           by rewrite bind_put.
        -- rewrite Nat.add_1_r. split; [done|lia].
      * rewrite drop_ge by lia. exists i. split; [|split; [by rewrite drop_ge by lia|lia]].
        cbn [qi_next_id iter_full]. rewrite bind_get. apply Nat.ltb_nlt in Hge as ->. done.
    + destruct (decide (i < len)) as [Hlt|Hge].
      * destruct (HL i Hlt) as (e & Ea & Eb & El). rewrite (drop_S _ _ _ El). exists (i + 1). split.
        -- cbn [qi_next iter_full]. rewrite bind_get. apply Nat.ltb_lt in Hlt as ->.
           rewrite (bind_ret _ _ _ _ _ (ptr_Some _ _ _ _ Ha')), (bind_ret _ _ _ _ _ (ptr_Some _ _ _ _ Hb')).
           rewrite (bind_ret _ _ _ _ _ (data_unchecked_ret (st_set sa') i i
             ltac:(rewrite <- (wf_len _ Wa'); apply lookup_lt_Some in Ea; rewrite Hea; lia))).
           rewrite (bind_ret _ _ _ _ _ (data_unchecked_ret (st_set sb') i i
             ltac:(rewrite <- (wf_len _ Wb'); apply lookup_lt_Some in Eb; rewrite Heb; lia))).
           by rewrite bind_put.
        -- rewrite Nat.add_1_r. split; [done|lia].
      * rewrite drop_ge by lia. exists i. split; [|split; [by rewrite drop_ge by lia|lia]].
        cbn [qi_next iter_full]. rewrite bind_get. apply Nat.ltb_nlt in Hge as ->. done.
    + intros id. exists i. split; [|done]. cbn [qi_from_id iter_full]. by eapply pair_from_id.
    + rewrite drop_length. cbn [qi_fuel iter_full]. lia.
    + cbn [qi_hint iter_full]. unfold sub_hint. rewrite drop_length, HLl.
      destruct (Nat.ltb_spec len i); [lia|done].
Qed.

Definition part_items (w : world) (ma mb : bool) (a b : nat) (es : list nat) : list (nat * item) :=
  imap (fun i e => (e, I2 (IRef ma a i) (IRef mb b (default 0 (loc w b e))))) es.

Lemma iter_part_ok w ma mb a b sa sb len mem : w_comps w !! a = Some sa -> w_comps w !! b = Some sb ->
  ss_wf (st_set sa) -> ss_wf (st_set sb) -> part_ok len (st_set sa) (st_set sb) mem ->
  iter_ok true w (iter_part ma mb a b len) (pair_loc w ma mb a b)
    (part_items w ma mb a b (take len (entities (st_set sa)))).
Proof.
  intros Ha Hb Wa Wb (L1 & Hm & Hmb).
  set (es := take len (entities (st_set sa))). set (L := part_items w ma mb a b es).
  assert (length es = len) as Hel by (unfold es; rewrite take_length; lia).
  assert (length L = len) as HLl by (unfold L, part_items; by rewrite imap_length).
  assert (forall i, i < len -> exists e j, entities (st_set sa) !! i = Some e /\ ss_get_index (st_set sb) e = Some j /\
     loc w b e = Some j /\ L !! i = Some (e, I2 (IRef ma a i) (IRef mb b j))) as HL.
  { intros i Hi. destruct (lookup_lt_is_Some_2 (entities (st_set sa)) i) as [e He]; [lia|]. exists e.
    assert (es !! i = Some e) as Hes by (unfold es; by rewrite lookup_take).
    assert (e ∈ mem) as Hin by (rewrite Hm; apply elem_of_list_to_set; by eapply elem_of_list_lookup_2).
    apply Hmb in Hin. apply (elem_pos _ _ Wb) in Hin as [j Hj]. exists j.
    assert (loc w b e = Some j) as Hlj by (unfold loc; by rewrite Hb).
    split; [done|]. split; [done|]. split; [done|].
    unfold L, part_items. rewrite list_lookup_imap, Hes. simpl. by rewrite Hlj. }
  split.
  - unfold L, part_items. rewrite imap_fst by done. unfold es. apply NoDup_take. by apply wf_nodup.
  - intros id it Hin. apply elem_of_list_lookup in Hin as [i Hi].
    assert (i < len) as Hlt by (apply lookup_lt_Some in Hi; lia).
    destruct (HL i Hlt) as (e & j & Ea & Ej & Elj & El). rewrite El in Hi. injection Hi as <- <-.
    unfold pair_loc. rewrite Elj. unfold loc. rewrite Ha. apply (wf_pos _ Wa) in Ea. by rewrite Ea.
  - exists (fun (i : nat) l => l = drop i L /\ i <= length L). split; [split; [done|apply Nat.le_0_l]|].
    intros w' Hw i l [-> Hle]. cbn [qi_st iter_ref iter_full iter_part iter_non] in i.
    destruct (shape_Some _ _ _ _ Hw Ha) as (sa' & Ha' & Sa). destruct (shape_Some _ _ _ _ Hw Hb) as (sb' & Hb' & Sb).
    pose proof (sh_wf _ _ Sa Wa) as Wa'. pose proof (sh_wf _ _ Sb Wb) as Wb'.
    pose proof Sa as (_ & _ & Hea & _). pose proof Sb as (_ & _ & Heb & _).
    split_and!.
    + destruct (decide (i < len)) as [Hlt|Hge].
      * destruct (HL i Hlt) as (e & j & Ea & Ej & Elj & El). rewrite (drop_S _ _ _ El). exists (i + 1). split.
        -- cbn [qi_next_id iter_part]. rewrite bind_get. apply Nat.ltb_lt in Hlt as ->.
           rewrite (bind_ret _ _ _ _ _ (ptr_Some _ _ _ _ Ha')), (bind_ret _ _ _ _ _ (ptr_Some _ _ _ _ Hb')).
           rewrite (bind_ret _ _ _ _ _ (ent_unchecked_ret (st_set sa') i e i ltac:(congruence))).
           rewrite (bind_ret _ _ _ _ _ (data_unchecked_ret (st_set sa') i i
             ltac:(rewrite <- (wf_len _ Wa'); apply lookup_lt_Some in Ea; rewrite Hea; lia))).
           rewrite (get_loc_wf _ _ Wb'), (sh_index _ _ _ Sb), Ej, bind_lift. done.
        -- rewrite Nat.add_1_r. split; [done|lia].
      * rewrite drop_ge by lia. exists i. split; [|split; [by rewrite drop_ge by lia|lia]].
        cbn [qi_next_id iter_part]. rewrite bind_get. apply Nat.ltb_nlt in Hge as ->. done.
    + destruct (decide (i < len)) as [Hlt|Hge].
      * destruct (HL i Hlt) as (e & j & Ea & Ej & Elj & El). rewrite (drop_S _ _ _ El). exists (i + 1). split.
        -- cbn [qi_next iter_part]. rewrite bind_get. apply Nat.ltb_lt in Hlt as ->.
           rewrite (bind_ret _ _ _ _ _ (ptr_Some _ _ _ _ Ha')), (bind_ret _ _ _ _ _ (ptr_Some _ _ _ _ Hb')).
           rewrite (bind_ret _ _ _ _ _ (ent_unchecked_ret (st_set sa') i e i ltac:(congruence))).
           rewrite (bind_ret _ _ _ _ _ (data_unchecked_ret (st_set sa') i i
             ltac:(rewrite <- (wf_len _ Wa'); apply lookup_lt_Some in Ea; rewrite Hea; lia))).
           rewrite (get_loc_wf _ _ Wb'), (sh_index _ _ _ Sb), Ej, bind_lift. done.
        -- rewrite Nat.add_1_r. split; [done|lia].
      * rewrite drop_ge by lia. exists i. split; [|split; [by rewrite drop_ge by lia|lia]].
        cbn [qi_next iter_part]. rewrite bind_get. apply Nat.ltb_nlt in Hge as ->. done.
    + intros id. exists i. split; [|done]. cbn [qi_from_id iter_part]. by eapply pair_from_id.
    + rewrite drop_length. cbn [qi_fuel iter_part]. lia.
    + cbn [qi_hint iter_part]. unfold sub_hint. rewrite drop_length, HLl.
      destruct (Nat.ltb_spec len i); [lia|done].
Qed.

Definition non_items (ma mb : bool) (a b : nat) (g : sset (nat * nat)) : list (nat * item) :=
  zip_with (fun e (p : nat * nat) => (e, I2 (IRef ma a p.1) (IRef mb b p.2))) (entities g) (sdata g).

Lemma iter_non_ok w ma mb a b sa sb gi d mem : w_comps w !! a = Some sa -> w_comps w !! b = Some sb ->
  ss_wf (st_set sa) -> ss_wf (st_set sb) -> w_groups w !! gi = Some (GNon d) ->
  non_ok (nd_set d) (st_set sa) (st_set sb) mem true ->
  iter_ok true w (iter_non ma mb a b gi)
    (fun id => if decide (id ∈ mem) then pair_loc w ma mb a b id else None)
    (non_items ma mb a b (nd_set d)).
Proof.
  intros Ha Hb Wa Wb Hgi (Wg & Hmem & Hin & Hfr). specialize (Hfr eq_refl).
  set (g := nd_set d) in *. set (L := non_items ma mb a b g).
  assert (length L = ss_len g) as HLl.
  { unfold L, non_items, ss_len. rewrite zip_with_length. rewrite (wf_len _ Wg). lia. }
  assert (forall i, i < ss_len g -> exists e ja jb, entities g !! i = Some e /\ sdata g !! i = Some (ja, jb) /\
     ss_get_index g e = Some i /\ e ∈ mem /\
     ss_get_index (st_set sa) e = Some ja /\ ss_get_index (st_set sb) e = Some jb /\
     L !! i = Some (e, I2 (IRef ma a ja) (IRef mb b jb))) as HL.
  { intros i Hi. destruct (lookup_lt_is_Some_2 (entities g) i) as [e He]; [done|].
    destruct (lookup_lt_is_Some_2 (sdata g) i) as [[ja jb] Hd]; [rewrite <- (wf_len _ Wg); done|].
    pose proof He as Hp. apply (wf_pos _ Wg) in Hp.
    destruct (Hfr e ja jb) as [Ea Eb]; [unfold ss_lookup; by rewrite Hp|].
    exists e, ja, jb. split_and!; try done.
    - apply Hmem. by eapply elem_of_list_lookup_2.
    - unfold L, non_items. rewrite lookup_zip_with, He, Hd. done. }
  split.
  - assert (L.*1 = entities g) as ->; [|by apply wf_nodup].
    unfold L, non_items. rewrite fmap_zip_with_l; [done|done|]. rewrite (wf_len _ Wg). done.
  - intros id it Hit. apply elem_of_list_lookup in Hit as [i Hi].
    assert (i < ss_len g) as Hlt by (apply lookup_lt_Some in Hi; lia).
    destruct (HL i Hlt) as (e & ja & jb & He & Hd & Hp & Hm & Ea & Eb & El). rewrite El in Hi. injection Hi as <- <-.
    rewrite decide_True by done. unfold pair_loc, loc. by rewrite Ha, Hb, Ea, Eb.
  - exists (fun (i : nat) l => l = drop i L /\ i <= length L). split; [split; [done|apply Nat.le_0_l]|].
    intros w' Hw i l [-> Hle]. cbn [qi_st iter_ref iter_full iter_part iter_non] in i.
    destruct (shape_Some _ _ _ _ Hw Ha) as (sa' & Ha' & Sa). destruct (shape_Some _ _ _ _ Hw Hb) as (sb' & Hb' & Sb).
    pose proof (sh_wf _ _ Sa Wa) as Wa'. pose proof (sh_wf _ _ Sb Wb) as Wb'.
    assert (w_groups w' !! gi = Some (GNon d)) as Hgi' by (destruct Hw as [-> _]; done).
    assert (forall (x : nat), gptr w' gi x = (Ret g, x)) as Hgp by (intros x; unfold gptr; by rewrite Hgi').
    assert (forall st st' e j, sh_st st st' -> ss_wf (st_set st') -> ss_get_index (st_set st) e = Some j ->
       j < length (sdata (st_set st'))) as Hlt.
    { intros st st' e j Sh W' Hj. rewrite <- (sh_index _ _ _ Sh) in Hj. apply (wf_pos _ W') in Hj.
      rewrite <- (wf_len _ W'). by eapply lookup_lt_Some. }
    split_and!.
    + destruct (decide (i < ss_len g)) as [Hi|Hge].
      * destruct (HL i Hi) as (e & ja & jb & He & Hd & Hp & Hm & Ea & Eb & El). rewrite (drop_S _ _ _ El). exists (i + 1). split.
        -- cbn [qi_next_id iter_non]. rewrite bind_get, (bind_ret _ _ _ _ _ (Hgp _)). apply Nat.ltb_lt in Hi as ->.
           rewrite He, Hd.
           rewrite (bind_ret _ _ _ _ _ (ptr_Some _ _ _ _ Ha')), (bind_ret _ _ _ _ _ (ptr_Some _ _ _ _ Hb')).
           rewrite (bind_ret _ _ _ _ _ (data_unchecked_ret (st_set sa') ja i (Hlt _ _ _ _ Sa Wa' Ea))).
           rewrite (bind_ret _ _ _ _ _ (data_unchecked_ret (st_set sb') jb i (Hlt _ _ _ _ Sb Wb' Eb))).
           by rewrite bind_put.
        -- rewrite Nat.add_1_r. split; [done|lia].
      * rewrite drop_ge by lia. exists i. split; [|split; [by rewrite drop_ge by lia|lia]].
        cbn [qi_next_id iter_non]. rewrite bind_get, (bind_ret _ _ _ _ _ (Hgp _)). apply Nat.ltb_nlt in Hge as ->. done.
    + destruct (decide (i < ss_len g)) as [Hi|Hge].
      * destruct (HL i Hi) as (e & ja & jb & He & Hd & Hp & Hm & Ea & Eb & El). rewrite (drop_S _ _ _ El). exists (i + 1). split.
        -- cbn [qi_next iter_non]. rewrite bind_get, (bind_ret _ _ _ _ _ (Hgp _)). apply Nat.ltb_lt in Hi as ->.
           rewrite Hd.
           rewrite (bind_ret _ _ _ _ _ (ptr_Some _ _ _ _ Ha')), (bind_ret _ _ _ _ _ (ptr_Some _ _ _ _ Hb')).
           rewrite (bind_ret _ _ _ _ _ (data_unchecked_ret (st_set sa') ja i (Hlt _ _ _ _ Sa Wa' Ea))).
           rewrite (bind_ret _ _ _ _ _ (data_unchecked_ret (st_set sb') jb i (Hlt _ _ _ _ Sb Wb' Eb))).
           by rewrite bind_put.
        -- rewrite Nat.add_1_r. split; [done|lia].
      * rewrite drop_ge by lia. exists i. split; [|split; [by rewrite drop_ge by lia|lia]].
        cbn [qi_next iter_non]. rewrite bind_get, (bind_ret _ _ _ _ _ (Hgp _)). apply Nat.ltb_nlt in Hge as ->. done.
    + intros id. exists i. split; [|done]. cbn [qi_from_id iter_non].
      rewrite (bind_ret _ _ _ _ _ (Hgp _)).
      rewrite (bind_ret _ _ _ _ _ (ptr_Some _ _ _ _ Ha')), (bind_ret _ _ _ _ _ (ptr_Some _ _ _ _ Hb')).
      case_decide as C.
      * apply Hmem in C. apply (elem_pos _ _ Wg) in C as [k Hk]. pose proof Hk as Hk'. apply (wf_pos _ Wg) in Hk'.
        assert (k < ss_len g) as Hkl by (by eapply lookup_lt_Some).
        destruct (HL k Hkl) as (e & ja & jb & He & Hd & Hp & Hm & Ea & Eb & El).
        assert (e = id) as -> by congruence.
        assert (ss_get g id = Ret (Some (ja, jb))) as ->.
        { unfold ss_get. rewrite (wf_idx _ _ _ Wg He). replace (k + 1 - 1) with k by lia. by rewrite Hd. }
        rewrite bind_lift.
        rewrite (bind_ret _ _ _ _ _ (data_unchecked_ret (st_set sa') ja i (Hlt _ _ _ _ Sa Wa' Ea))).
        rewrite (bind_ret _ _ _ _ _ (data_unchecked_ret (st_set sb') jb i (Hlt _ _ _ _ Sb Wb' Eb))).
        unfold pair_loc, loc. by rewrite Ha, Hb, Ea, Eb.
      * assert (ss_get g id = Ret None) as ->.
        { unfold ss_get. destruct (indices g !! id) as [[k|]|] eqn:E; [|done..].
          destruct (wf_idx_inv _ _ _ Wg E) as [_ Hk]. destruct C. apply Hmem. by eapply elem_of_list_lookup_2. }
        done.
    + rewrite drop_length. cbn [qi_fuel iter_non]. unfold gcount. rewrite Hgi'. simpl. fold g. lia.
    + cbn [qi_hint iter_non]. unfold sub_hint, gcount. rewrite Hgi'. simpl. fold g.
      rewrite drop_length, HLl. destruct (Nat.ltb_spec (ss_len g) i); [lia|done].
Qed.

End query.

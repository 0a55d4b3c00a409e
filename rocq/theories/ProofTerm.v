(** Iterators always come to an end: the loop fuel of the model is never
    exhausted, in no world whatsoever. *)
From stdpp Require Import prelude list gmap.
From Verif Require Import Base Api ModelSparse ModelEntity ModelGroup ModelWorld ModelQuery ModelStep.

Section term.
Context {V : Type}.
Implicit Types (w : world V).

Definition nblock {S A} (m : M S A) : Prop := forall s, (m s).1 <> Block.
Definition dec {S X} (mu : S -> nat) (m : M S (option X)) : Prop := forall s x s', m s = (Ret (Some x), s') -> mu s' < mu s.
Definition keep {S A} (mu : S -> nat) (m : M S A) : Prop := forall s, mu (m s).2 <= mu s.

Lemma nb_ret {S A} (a : A) : nblock (S := S) (ret a).
Proof. done. Qed.
Lemma nb_ub {S A} : nblock (@ub S A).
Proof. done. Qed.
Lemma nb_get {S} : nblock (@get S).
Proof. done. Qed.
Lemma nb_put {S} (s : S) : nblock (put s).
Proof. done. Qed.
Lemma nb_unwrap {S A} (o : option A) : nblock (S := S) (unwrap o).
Proof. by destruct o. Qed.
Lemma nb_lift {S A} (o : outcome A) : o <> Block -> nblock (S := S) (lift o).
Proof. by intros H s. Qed.
Lemma nb_bind {S A B} (m : M S A) (k : A -> M S B) : nblock m -> (forall a, nblock (k a)) -> nblock (bind m k).
Proof. intros H1 H2 s. unfold bind. specialize (H1 s). destruct (m s) as [[a| | |] s']; try done. apply H2. Qed.
Lemma nb_fst {S T A} (m : M S A) : nblock m -> nblock (@on_fst S T A m).
Proof. intros H [s t]. specialize (H s). unfold on_fst. simpl. by destruct (m s). Qed.
Lemma nb_snd {S T A} (m : M T A) : nblock m -> nblock (@on_snd S T A m).
Proof. intros H [s t]. specialize (H t). unfold on_snd. simpl. by destruct (m t). Qed.
Lemma nb_ptr {S} w t : nblock (S := S) (ptr w t).
Proof. unfold ptr. by destruct (w_comps w !! t). Qed.
Lemma nb_gptr {S} w t : nblock (S := S) (gptr w t).
Proof. unfold gptr. by destruct (w_groups w !! t) as [[| |]|]. Qed.
Lemma nb_data {S} (s : sset V) i : nblock (S := S) (data_unchecked s i).
Proof. unfold data_unchecked. by destruct (_ <? _). Qed.
Lemma nb_ent {S} (s : sset V) i : nblock (S := S) (ent_unchecked s i).
Proof. unfold ent_unchecked. by destruct (_ !! _). Qed.
Lemma nb_loc {U} (s : sset U) id : ss_get_loc s id <> Block.
Proof.
  unfold ss_get_loc. destruct (indices s !! id) as [[k|]|]; try done. by destruct (_ <? _).
Qed.
Lemma nb_val {U} (s : sset U) id : ss_get s id <> Block.
Proof.
  unfold ss_get. destruct (indices s !! id) as [[k|]|]; try done. by destruct (_ !! _).
Qed.

Lemma keep_ret {S A} mu (a : A) : keep (S := S) mu (ret a).
Proof. intros s. simpl. lia. Qed.
Lemma keep_bind {S A B} mu (m : M S A) (k : A -> M S B) : keep mu m -> (forall a, keep mu (k a)) -> keep mu (bind m k).
Proof.
  intros H1 H2 s. unfold bind. specialize (H1 s). destruct (m s) as [[a| | |] s']; try done. specialize (H2 a s'). simpl in *. lia.
Qed.
Lemma keep_snd {S T A} (mu : S -> nat) (m : M T A) : keep (fun s => mu s.1) (@on_snd S T A m).
Proof. intros [s t]. unfold on_snd. simpl. destruct (m t). simpl. lia. Qed.
Lemma keep_fst {S T A} (mu : T -> nat) (m : M S A) : keep (fun s => mu s.2) (@on_fst S T A m).
Proof. intros [s t]. unfold on_fst. simpl. destruct (m s). simpl. lia. Qed.
Lemma dec_fst {S T X} (mu : S -> nat) (m : M S (option X)) : dec mu m -> dec (fun s => mu s.1) (@on_fst S T _ m).
Proof. intros H [s t] x [s' t']. unfold on_fst. simpl. destruct (m s) as [o u] eqn:E. intros [= -> -> ->]. by eapply H. Qed.
Lemma dec_snd {S T X} (mu : T -> nat) (m : M T (option X)) : dec mu m -> dec (fun s => mu s.2) (@on_snd S T _ m).
Proof. intros H [s t] x [s' t']. unfold on_snd. simpl. destruct (m t) as [o u] eqn:E. intros [= -> -> ->]. by eapply H. Qed.

Lemma while_term {S X R} (mu : S -> nat) n (next : M S (option X)) (body : X -> M S (option R)) :
  nblock next -> dec mu next -> (forall x, nblock (body x) /\ keep mu (body x)) ->
  forall s, mu s < n -> (while_some n next body s).1 <> Block /\
    (forall y s', while_some n next body s = (Ret (Some y), s') -> mu s' < mu s).
Proof.
  intros N D B. induction n as [|n IH]; intros s Hs; [lia|]. cbn [while_some]. unfold bind at 1 3.
  specialize (N s). specialize (D s). destruct (next s) as [[[x|]| | |] s1]; try done. specialize (D x s1 eq_refl).
  destruct (B x) as [B1 B2]. specialize (B1 s1). specialize (B2 s1). unfold bind.
  destruct (body x s1) as [[[y|]| | |] s2]; try done; simpl in *.
  - split; [done|]. intros ? ? [= <- <-]. lia.
  - destruct (IH s2) as [H1 H2]; [lia|]. split; [done|]. intros y s' E. specialize (H2 y s' E). lia.
Qed.
Lemma loop_nb {S X R} (mu : S -> nat) (next : M S (option X)) (body : X -> M S (option R)) :
  nblock next -> dec mu next -> (forall x, nblock (body x) /\ keep mu (body x)) ->
  nblock (let! st := get in while_some (Datatypes.S (mu st)) next body).
Proof. intros N D B s. unfold bind, get. apply (while_term mu); [done..|lia]. Qed.
Lemma loop_dec {S X R} (mu : S -> nat) (next : M S (option X)) (body : X -> M S (option R)) :
  nblock next -> dec mu next -> (forall x, nblock (body x) /\ keep mu (body x)) ->
  dec mu (let! st := get in while_some (Datatypes.S (mu st)) next body).
Proof. intros N D B s x s'. unfold bind, get. apply (while_term mu); [done..|lia]. Qed.

(** what the fuel depends on *)
Definition same_sizes w w' : Prop := (forall t, st_count w t = st_count w' t) /\ w_groups w = w_groups w'.
Record qterm (J : qiter V) : Prop := {
  qt_next : forall w, nblock (qi_next J w);
  qt_next_id : forall w, nblock (qi_next_id J w);
  qt_from : forall w id, nblock (qi_from_id J w id);
  qt_hint : forall w st, qi_hint J w st <> Block;
  qt_dec : forall w, dec (qi_fuel J w) (qi_next J w);
  qt_dec_id : forall w, dec (qi_fuel J w) (qi_next_id J w);
  qt_fuel : forall w w' st, same_sizes w w' -> qi_fuel J w st = qi_fuel J w' st
}.

Ltac nbt := repeat first
  [ progress intros
  | match goal with
    | |- nblock (ret _) => apply nb_ret
    | |- nblock ub => apply nb_ub
    | |- nblock get => apply nb_get
    | |- nblock (put _) => apply nb_put
    | |- nblock (bind _ _) => apply nb_bind
    | |- nblock (ptr _ _) => apply nb_ptr
    | |- nblock (gptr _ _) => apply nb_gptr
    | |- nblock (unwrap _) => apply nb_unwrap
    | |- nblock (data_unchecked _ _) => apply nb_data
    | |- nblock (ent_unchecked _ _) => apply nb_ent
    | |- nblock (lift (ss_get_loc _ _)) => apply nb_lift, nb_loc
    | |- nblock (lift (ss_get _ _)) => apply nb_lift, nb_val
    | |- nblock (if ?b then _ else _) => destruct b
    | |- nblock (match ?b with _ => _ end) => destruct b
    end ].
Lemma sub_nb n i : sub_hint n i <> Block.
Proof. unfold sub_hint. by destruct (_ <? _). Qed.

Lemma term_ref m t : qterm (iter_ref (V := V) m t).
Proof.
  split.
  1-3: intros; cbn [iter_ref qi_next qi_next_id qi_from_id]; nbt.
  - intros w st. apply sub_nb.
  - intros w s x s'. simpl in s, s' |- *. unfold bind, get, ptr. destruct (w_comps w !! t) as [st|] eqn:E; [|done]. simpl.
    destruct (s <? ss_len (st_set st)) eqn:Hl; [|done]. apply Nat.ltb_lt in Hl. unfold data_unchecked. destruct (_ <? _); [|done].
    simpl. intros [= <- <-]. unfold st_count. rewrite E. lia.
  - intros w s x s'. simpl in s, s' |- *. unfold bind, get, ptr. destruct (w_comps w !! t) as [st|] eqn:E; [|done]. simpl.
    destruct (s <? ss_len (st_set st)) eqn:Hl; [|done]. apply Nat.ltb_lt in Hl. unfold ent_unchecked. destruct (entities _ !! _); [|done]. simpl.
    unfold data_unchecked. destruct (_ <? _); [|done].
    simpl. intros [= <- <-]. unfold st_count. rewrite E. lia.
  - intros w w' st [H _]. simpl. by rewrite H.
Qed.
Lemma term_full ma mb a b n : qterm (iter_full (V := V) ma mb a b n).
Proof.
  split.
  1-3: intros; cbn [iter_full qi_next qi_next_id qi_from_id]; nbt.
  - intros w st. apply sub_nb.
  - intros w s x s'. simpl in s, s' |- *. unfold bind, get, ptr. destruct (s <? n) eqn:Hl; [|done]. apply Nat.ltb_lt in Hl.
    destruct (w_comps w !! a), (w_comps w !! b); try done. simpl. unfold data_unchecked. do 2 (destruct (_ <? _); [|done]; simpl).
    intros [= <- <-]. lia.
  - intros w s x s'. simpl in s, s' |- *. unfold bind, get, ptr. destruct (s <? n) eqn:Hl; [|done]. apply Nat.ltb_lt in Hl.
    destruct (w_comps w !! a), (w_comps w !! b); try done. simpl. unfold ent_unchecked. destruct (entities _ !! _); [|done]. simpl.
    unfold data_unchecked. do 2 (destruct (_ <? _); [|done]; simpl). intros [= <- <-]. lia.
  - done.
Qed.
Lemma term_part ma mb a b n : qterm (iter_part (V := V) ma mb a b n).
Proof.
  split.
  1-3: intros; cbn [iter_part qi_next qi_next_id qi_from_id]; nbt.
  - intros w st. apply sub_nb.
  - intros w s x s'. simpl in s, s' |- *. unfold bind, get, ptr. destruct (s <? n) eqn:Hl; [|done]. apply Nat.ltb_lt in Hl.
    destruct (w_comps w !! a), (w_comps w !! b); try done. simpl. unfold ent_unchecked. destruct (entities _ !! _); [|done]. simpl.
    unfold data_unchecked. destruct (_ <? _); [|done]; simpl. unfold lift. destruct (ss_get_loc _ _) as [[|]| | |]; try done. simpl.
    intros [= <- <-]. lia.
  - intros w s x s'. simpl in s, s' |- *. unfold bind, get, ptr. destruct (s <? n) eqn:Hl; [|done]. apply Nat.ltb_lt in Hl.
    destruct (w_comps w !! a), (w_comps w !! b); try done. simpl. unfold ent_unchecked. destruct (entities _ !! _); [|done]. simpl.
    unfold data_unchecked. destruct (_ <? _); [|done]; simpl. unfold lift. destruct (ss_get_loc _ _) as [[|]| | |]; try done. simpl.
    intros [= <- <-]. lia.
  - done.
Qed.
Lemma term_non ma mb a b g : qterm (iter_non (V := V) ma mb a b g).
Proof.
  split.
  1-3: intros; cbn [iter_non qi_next qi_next_id qi_from_id]; nbt.
  - intros w st. apply sub_nb.
  - intros w s x s'. simpl in s, s' |- *. unfold bind, get, gptr. destruct (w_groups w !! g) as [[d|d|d]|] eqn:E; try done. simpl.
    destruct (s <? _) eqn:Hl; [|done]. apply Nat.ltb_lt in Hl. destruct (sdata (nd_set d) !! s) as [[ja jb]|]; [|done].
    unfold ptr. destruct (w_comps w !! a), (w_comps w !! b); try done. simpl. unfold data_unchecked. do 2 (destruct (_ <? _); [|done]; simpl).
    intros [= <- <-]. unfold gcount. rewrite E. simpl. lia.
  - intros w s x s'. simpl in s, s' |- *. unfold bind, get, gptr. destruct (w_groups w !! g) as [[d|d|d]|] eqn:E; try done. simpl.
    destruct (s <? _) eqn:Hl; [|done]. apply Nat.ltb_lt in Hl. destruct (entities (nd_set d) !! s); [|done].
    destruct (sdata (nd_set d) !! s) as [[ja jb]|]; [|done].
    unfold ptr. destruct (w_comps w !! a), (w_comps w !! b); try done. simpl. unfold data_unchecked. do 2 (destruct (_ <? _); [|done]; simpl).
    intros [= <- <-]. unfold gcount. rewrite E. simpl. lia.
  - intros w w' st [_ H]. simpl. unfold gcount. by rewrite H.
Qed.

Ltac qtt := repeat first
  [ progress intros
  | match goal with
    | |- nblock (ret _) => apply nb_ret
    | |- nblock get => apply nb_get
    | |- nblock (bind _ _) => apply nb_bind
    | |- nblock (on_fst _) => apply nb_fst
    | |- nblock (on_snd _) => apply nb_snd
    | H : qterm ?J |- nblock (qi_next ?J _) => apply (qt_next _ H)
    | H : qterm ?J |- nblock (qi_next_id ?J _) => apply (qt_next_id _ H)
    | H : qterm ?J |- nblock (qi_from_id ?J _ _) => apply (qt_from _ H)
    | |- nblock (match ?b with _ => _ end) => destruct b
    | |- keep _ (ret _) => apply keep_ret
    | |- keep _ (bind _ _) => apply keep_bind
    | |- keep _ (on_snd _) => apply keep_snd
    | |- keep _ (on_fst _) => apply keep_fst
    | |- keep _ (match ?b with _ => _ end) => destruct b
    end ].
Lemma term_with2 A B : qterm A -> qterm B -> qterm (with2 A B).
Proof.
  intros HA HB. split; cbn [with2 qi_next qi_next_id qi_from_id qi_hint qi_fuel]; intros.
  - apply (loop_nb (fun st => qi_fuel A w st.1)); [by apply nb_fst, HA|by apply dec_fst, HA|]. intros [id x]. split; qtt.
  - apply (loop_nb (fun st => qi_fuel A w st.1)); [by apply nb_fst, HA|by apply dec_fst, HA|]. intros [id x]. split; qtt.
  - qtt.
  - done.
  - apply (loop_dec (fun st => qi_fuel A w st.1)); [by apply nb_fst, HA|by apply dec_fst, HA|]. intros [id x]. split; qtt.
  - apply (loop_dec (fun st => qi_fuel A w st.1)); [by apply nb_fst, HA|by apply dec_fst, HA|]. intros [id x]. split; qtt.
  - by apply HA.
Qed.
Lemma term_with3 A B C : qterm A -> qterm B -> qterm C -> qterm (with3 A B C).
Proof.
  intros HA HB HC. split; cbn [with3 qi_next qi_next_id qi_from_id qi_hint qi_fuel]; intros.
  - apply (loop_nb (fun st => qi_fuel A w st.1)); [by apply nb_fst, HA|by apply dec_fst, HA|]. intros [id x]. split; qtt.
  - apply (loop_nb (fun st => qi_fuel A w st.1)); [by apply nb_fst, HA|by apply dec_fst, HA|]. intros [id x]. split; qtt.
  - qtt.
  - done.
  - apply (loop_dec (fun st => qi_fuel A w st.1)); [by apply nb_fst, HA|by apply dec_fst, HA|]. intros [id x]. split; qtt.
  - apply (loop_dec (fun st => qi_fuel A w st.1)); [by apply nb_fst, HA|by apply dec_fst, HA|]. intros [id x]. split; qtt.
  - by apply HA.
Qed.
Lemma term_with4 A B C D : qterm A -> qterm B -> qterm C -> qterm D -> qterm (with4 A B C D).
Proof.
  intros HA HB HC HD. split; cbn [with4 qi_next qi_next_id qi_from_id qi_hint qi_fuel]; intros.
  - apply (loop_nb (fun st => qi_fuel A w st.1)); [by apply nb_fst, HA|by apply dec_fst, HA|]. intros [id x]. split; qtt.
  - apply (loop_nb (fun st => qi_fuel A w st.1)); [by apply nb_fst, HA|by apply dec_fst, HA|]. intros [id x]. split; qtt.
  - qtt.
  - done.
  - apply (loop_dec (fun st => qi_fuel A w st.1)); [by apply nb_fst, HA|by apply dec_fst, HA|]. intros [id x]. split; qtt.
  - apply (loop_dec (fun st => qi_fuel A w st.1)); [by apply nb_fst, HA|by apply dec_fst, HA|]. intros [id x]. split; qtt.
  - by apply HA.
Qed.
Lemma term_with5 A B C D E : qterm A -> qterm B -> qterm C -> qterm D -> qterm E -> qterm (with5 A B C D E).
Proof.
  intros HA HB HC HD HE. split; cbn [with5 qi_next qi_next_id qi_from_id qi_hint qi_fuel]; intros.
  - apply (loop_nb (fun st => qi_fuel A w st.1)); [by apply nb_fst, HA|by apply dec_fst, HA|]. intros [id x]. split; qtt.
  - apply (loop_nb (fun st => qi_fuel A w st.1)); [by apply nb_fst, HA|by apply dec_fst, HA|]. intros [id x]. split; qtt.
  - qtt.
  - done.
  - apply (loop_dec (fun st => qi_fuel A w st.1)); [by apply nb_fst, HA|by apply dec_fst, HA|]. intros [id x]. split; qtt.
  - apply (loop_dec (fun st => qi_fuel A w st.1)); [by apply nb_fst, HA|by apply dec_fst, HA|]. intros [id x]. split; qtt.
  - by apply HA.
Qed.
Lemma term_left A B : qterm A -> qterm B -> qterm (without_left A B).
Proof.
  intros HA HB. split; cbn [without_left qi_next qi_next_id qi_from_id qi_hint qi_fuel]; intros.
  - apply (loop_nb (fun st => qi_fuel B w st.2)); [by apply nb_snd, HB|by apply dec_snd, HB|]. intros [id x]. split; qtt.
  - apply (loop_nb (fun st => qi_fuel B w st.2)); [by apply nb_snd, HB|by apply dec_snd, HB|]. intros [id x]. split; qtt.
  - qtt.
  - done.
  - apply (loop_dec (fun st => qi_fuel B w st.2)); [by apply nb_snd, HB|by apply dec_snd, HB|]. intros [id x]. split; qtt.
  - apply (loop_dec (fun st => qi_fuel B w st.2)); [by apply nb_snd, HB|by apply dec_snd, HB|]. intros [id x]. split; qtt.
  - by apply HB.
Qed.
Lemma term_right A B : qterm A -> qterm B -> qterm (without_right A B).
Proof.
  intros HA HB. split; cbn [without_right qi_next qi_next_id qi_from_id qi_hint qi_fuel]; intros.
  - apply (loop_nb (fun st => qi_fuel A w st.1)); [by apply nb_fst, HA|by apply dec_fst, HA|]. intros [id x]. split; qtt.
  - apply (loop_nb (fun st => qi_fuel A w st.1)); [by apply nb_fst, HA|by apply dec_fst, HA|]. intros [id x]. split; qtt.
  - qtt.
  - done.
  - apply (loop_dec (fun st => qi_fuel A w st.1)); [by apply nb_fst, HA|by apply dec_fst, HA|]. intros [id x]. split; qtt.
  - apply (loop_dec (fun st => qi_fuel A w st.1)); [by apply nb_fst, HA|by apply dec_fst, HA|]. intros [id x]. split; qtt.
  - by apply HA.
Qed.

(** Running to the end. *)
Lemma collect_term J n w st : qterm J -> qi_fuel J w st < n -> collect n w J st <> Block.
Proof.
  intros HJ. revert st. induction n as [|n IH]; intros st Hn; [lia|]. cbn [collect].
  pose proof (qt_next_id J HJ w st) as N. pose proof (qt_dec_id J HJ w st) as D.
  destruct (qi_next_id J w st) as [[[[id it]|]| | |] st']; try done. specialize (D _ _ eq_refl).
  destruct (deref w it); [|done]. assert (collect n w J st' <> Block) as H by (apply IH; lia).
  by destruct (collect n w J st').
Qed.
Lemma sizes_refl w : same_sizes w w.
Proof. done. Qed.
Lemma sizes_trans w1 w2 w3 : same_sizes w1 w2 -> same_sizes w2 w3 -> same_sizes w1 w3.
Proof. intros [A B] [C D]. split; intros; etrans; eauto. Qed.
Lemma sizes_poke w t i f : same_sizes w (poke w t i f).
Proof.
  split.
  - intros u. unfold poke, st_count. destruct (w_comps w !! t) as [st|] eqn:E; [|done]. destruct (sdata (st_set st) !! i); [|done].
    simpl. destruct (decide (u = t)) as [->|]; [by rewrite lookup_insert, E|by rewrite lookup_insert_ne].
  - unfold poke. destruct (w_comps w !! t) as [st|]; [|done]. by destruct (sdata (st_set st) !! i).
Qed.
Lemma sizes_poke_item f id it w : same_sizes w (poke_item f id it w).
Proof.
  revert w. induction it as [m t i|a IHa b IHb|a IHa b IHb c IHc|a IHa b IHb c IHc d IHd|a IHa b IHb c IHc d IHd e IHe]; intros w; simpl.
  - destruct m; [apply sizes_poke|done].
  - eapply sizes_trans; [apply IHa|apply IHb].
  - eapply sizes_trans; [apply IHa|]. eapply sizes_trans; [apply IHb|apply IHc].
  - eapply sizes_trans; [apply IHa|]. eapply sizes_trans; [apply IHb|]. eapply sizes_trans; [apply IHc|apply IHd].
  - eapply sizes_trans; [apply IHa|]. eapply sizes_trans; [apply IHb|]. eapply sizes_trans; [apply IHc|].
    eapply sizes_trans; [apply IHd|apply IHe].
Qed.
Lemma drive_term J f n w st : qterm J -> qi_fuel J w st < n -> (drive n J f st w).1 <> Block.
Proof.
  intros HJ. revert w st. induction n as [|n IH]; intros w st Hn; [lia|]. cbn [drive].
  pose proof (qt_next_id J HJ w st) as N. pose proof (qt_dec_id J HJ w st) as D.
  destruct (qi_next_id J w st) as [[[[id it]|]| | |] st']; try done. specialize (D _ _ eq_refl).
  destruct (deref w it); [|done].
  assert ((drive n J f st' (poke_item f id it w)).1 <> Block) as H.
  { apply IH. rewrite <- (qt_fuel J HJ w _ _ (sizes_poke_item f id it w)). lia. }
  by destruct (drive n J f st' (poke_item f id it w)) as [[]].
Qed.
Lemma call_term J c w st : qterm J -> (run_call J c (w, st)).1 <> Block.
Proof.
  intros HJ. destruct c as [| |id| |g]; simpl.
  - pose proof (qt_next J HJ w st) as N. destruct (qi_next J w st) as [[[it|]| | |] st']; try done. simpl. by destruct (deref w it).
  - pose proof (qt_next_id J HJ w st) as N. destruct (qi_next_id J w st) as [[[[i it]|]| | |] st']; try done. simpl. by destruct (deref w it).
  - pose proof (qt_from J HJ w id st) as N. destruct (qi_from_id J w id st) as [[[it|]| | |] st']; try done. simpl. by destruct (deref w it).
  - pose proof (qt_hint J HJ w st) as N. by destruct (qi_hint J w st).
  - done.
Qed.
End term.

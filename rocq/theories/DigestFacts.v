(** What the digests of BIP-143 and BIP-341 determine. *)
From Verif Require Import Base OMap Consensus ConsensusFacts Ext RealExt RealLaws Serialize RealSign V0Sign RealTaproot.
Local Open Scope N_scope.

(** Two strings with the same hash. *)
Definition sha_collision (a b : bytes) : Prop := a <> b /\ real_sha256 a = real_sha256 b.
Definition broken : Prop := exists a b, sha_collision a b.

Lemma sha_inj a b : real_sha256 a = real_sha256 b -> a = b \/ broken.
Proof.
  intros H. destruct (bytes_eqb a b) eqn:E; [left; now apply bytes_eqb_eq|].
  right. exists a, b. split; [|exact H]. intros ->. rewrite bytes_eqb_refl in E. discriminate.
Qed.

Lemma app_inj_len {A} (a b c d : list A) : length a = length b -> a ++ c = b ++ d -> a = b /\ c = d.
Proof.
  revert b. induction a as [|x a IH]; intros [|y b] Hl H; try discriminate; [auto|].
  cbn in *. injection H as -> H. injection Hl as Hl. destruct (IH b Hl H) as [-> ->]. auto.
Qed.
Lemma le_app_inj k m n r s : m < 256 ^ N.of_nat k -> n < 256 ^ N.of_nat k -> le_enc k m ++ r = le_enc k n ++ s -> m = n /\ r = s.
Proof.
  intros Hm Hn H. apply app_inj_len in H as [E ->]; [|now rewrite !le_enc_length]. split; [|reflexivity]. now apply (le_enc_inj k).
Qed.
Lemma sha_app_inj a b r s : real_sha256 a ++ r = real_sha256 b ++ s -> (a = b \/ broken) /\ r = s.
Proof.
  intros H. apply app_inj_len in H as [E ->]; [|now rewrite !real_sha256_len]. split; [|reflexivity]. now apply sha_inj.
Qed.
Lemma rt_inj {E A} (wf : A -> Prop) enc (dec : reader E A) a b r s : rt wf enc dec -> wf a -> wf b ->
  enc a ++ r = enc b ++ s -> a = b /\ r = s.
Proof. intros R Ha Hb H. pose proof (R a r Ha) as H1. rewrite H, (R b s Hb) in H1. injection H1 as -> ->. auto. Qed.

(** Concatenations of codes that no other code starts with. *)
Lemma flat_inj {A B} (Q : A -> Prop) (f : A -> B) (e : A -> bytes) :
  (forall a b r s, Q a -> Q b -> e a ++ r = e b ++ s -> f a = f b /\ r = s) -> (forall a, Q a -> e a <> []) ->
  forall l l', Forall Q l -> Forall Q l' -> flat_map e l = flat_map e l' -> map f l = map f l'.
Proof.
  intros Inj Ne. induction l as [|a l IH]; intros [|b l'] Hl Hl' H; cbn [flat_map map] in *; [reflexivity| | |].
  - apply Forall_cons_iff in Hl' as [Hb _]. apply Ne in Hb. destruct (e b); [congruence|discriminate H].
  - apply Forall_cons_iff in Hl as [Hb _]. apply Ne in Hb. destruct (e a); [congruence|discriminate H].
  - apply Forall_cons_iff in Hl as [Ha Hl]. apply Forall_cons_iff in Hl' as [Hb Hl'].
    apply Inj in H as [-> H]; auto. f_equal. auto.
Qed.

Lemma outpoint_inj i j r s : wf_txin i -> wf_txin j -> enc_outpoint i ++ r = enc_outpoint j ++ s ->
  (ti_txid i, ti_vout i) = (ti_txid j, ti_vout j) /\ r = s.
Proof.
  intros (Li & Vi & _) (Lj & Vj & _) H. unfold enc_outpoint in H. rewrite <- !app_assoc in H.
  apply app_inj_len in H as [-> H]; [|congruence]. apply (le_app_inj 4) in H as [-> ->]; auto.
Qed.
Lemma len_nonempty {A} (l : list A) n : length l = S n -> l <> [].
Proof. now destruct l. Qed.
Lemma outpoint_len i : wf_txin i -> length (enc_outpoint i) = 36%nat.
Proof. intros (Li & _). unfold enc_outpoint. rewrite app_length, Li, le_enc_length. reflexivity. Qed.

Lemma outpoints_inj l l' : Forall wf_txin l -> Forall wf_txin l' -> flat_map enc_outpoint l = flat_map enc_outpoint l' ->
  map (fun i => (ti_txid i, ti_vout i)) l = map (fun i => (ti_txid i, ti_vout i)) l'.
Proof.
  apply flat_inj; [intros; now apply outpoint_inj|]. intros i Hi. apply (len_nonempty _ 35). now apply outpoint_len.
Qed.
Lemma sequences_inj l l' : Forall wf_txin l -> Forall wf_txin l' ->
  flat_map (fun i => le_enc 4 (ti_sequence i)) l = flat_map (fun i => le_enc 4 (ti_sequence i)) l' -> map ti_sequence l = map ti_sequence l'.
Proof.
  apply flat_inj.
  - intros a b r s (_ & _ & _ & Ha & _) (_ & _ & _ & Hb & _). now apply (le_app_inj 4).
  - intros a _. apply (len_nonempty _ 3). apply le_enc_length.
Qed.
Lemma txouts_inj l l' : Forall wf_txout l -> Forall wf_txout l' -> flat_map enc_txout l = flat_map enc_txout l' -> l = l'.
Proof.
  intros Hl Hl' H. rewrite <- (map_id l), <- (map_id l'). revert H. apply (flat_inj wf_txout); auto.
  - intros a b r s Ha Hb. apply (rt_inj wf_txout enc_txout dec_txout); auto. exact dec_txout_rt.
  - intros a _. apply enc_txout_nonempty.
Qed.
Lemma prevouts_inj l l' : Forall wf_txout l -> Forall wf_txout l' ->
  flat_map (fun u => le_enc 8 (to_value u)) l = flat_map (fun u => le_enc 8 (to_value u)) l' ->
  flat_map (fun u => enc_bytes (to_script u)) l = flat_map (fun u => enc_bytes (to_script u)) l' -> l = l'.
Proof.
  intros Hl Hl' H1 H2.
  assert (E1 : map to_value l = map to_value l').
  { revert H1. apply (flat_inj wf_txout); auto.
    - intros a b r s [Ha _] [Hb _]. now apply (le_app_inj 8).
    - intros a _. apply (len_nonempty _ 7). apply le_enc_length. }
  assert (E2 : map to_script l = map to_script l').
  { revert H2. apply (flat_inj wf_txout); auto.
    - intros a b r s [_ Ha] [_ Hb]. apply (rt_inj wf_vec enc_bytes dec_bytes); auto. exact dec_bytes_rt.
    - intros a _. apply enc_bytes_nonempty. }
  clear - E1 E2. revert l' E1 E2. induction l as [|[v s] l IH]; intros [|[v' s'] l'] E1 E2; try discriminate; [reflexivity|].
  cbn in *. injection E1 as -> E1. injection E2 as -> E2. f_equal. auto.
Qed.

(** ** BIP-341 *)

(** The outputs spent as the signer gives them. *)
Definition given (t : tx) (n : N) (prev : prevouts) (ty : N) : Prop :=
  if N.testbit ty 7 then exists i u, nth_error (tx_input t) (N.to_nat n) = Some i /\ prev = PrevoutsOne n u /\ wf_txout u
  else exists us, prev = PrevoutsAll us /\ Forall wf_txout us /\ n < 2 ^ 32.
Definition leaf_len (leaf : option bytes) : Prop := forall h, leaf = Some h -> length h = 32%nat.

Ltac sha H := let E := fresh "E" in apply sha_app_inj in H as [[E|E] H]; [|left; exact E].

Lemma tail_inj (single : bool) (o o' : option txout) (leaf leaf' : option bytes) :
  leaf_len leaf -> leaf_len leaf' -> (leaf = None <-> leaf' = None) ->
  (forall u, o = Some u -> wf_txout u) -> (forall u, o' = Some u -> wf_txout u) ->
  (single = true -> o <> None) -> (single = true -> o' <> None) ->
  (if single then match o with Some o => real_sha256 (enc_txout o) | None => [] end else [])
    ++ match leaf with Some h => h ++ [x00; xff; xff; xff; xff] | None => [] end =
  (if single then match o' with Some o => real_sha256 (enc_txout o) | None => [] end else [])
    ++ match leaf' with Some h => h ++ [x00; xff; xff; xff; xff] | None => [] end ->
  broken \/ (leaf = leaf' /\ (single = true -> o = o')).
Proof.
  intros Ll Ll' Hn Wo Wo' So So' H.
  assert (L : forall r r' : bytes, r = match leaf with Some h => h ++ [x00; xff; xff; xff; xff] | None => [] end ->
    r' = match leaf' with Some h => h ++ [x00; xff; xff; xff; xff] | None => [] end -> r = r' -> leaf = leaf').
  { intros r r' -> ->. destruct leaf as [h|], leaf' as [h'|]; intros E; try reflexivity.
    - apply app_inj_len in E as [-> _]; [reflexivity|]. rewrite (Ll h eq_refl), (Ll' h' eq_refl). reflexivity.
    - destruct (proj2 Hn eq_refl). reflexivity.
    - destruct (proj1 Hn eq_refl). reflexivity. }
  destruct single; [|right; split; [|discriminate]; exact (L _ _ eq_refl eq_refl H)].
  destruct o as [u|]; [|now destruct So]. destruct o' as [u'|]; [|now destruct So'].
  sha H. right. split; [exact (L _ _ eq_refl eq_refl H)|]. intros _. f_equal.
  destruct (rt_inj wf_txout enc_txout dec_txout u u' [] []) as [-> _]; auto.
  - exact dec_txout_rt.
  - now rewrite !app_nil_r.
Qed.

Lemma tap_message_inj t n prev leaf ty t' n' prev' leaf' ty' :
  wf_tx t -> wf_tx t' -> ty < 256 -> ty' < 256 -> given t n prev ty -> given t' n' prev' ty' -> leaf_len leaf -> leaf_len leaf' ->
  (N.land ty 3 = 3 -> nth_error (tx_output t) (N.to_nat n) <> None) ->
  (N.land ty' 3 = 3 -> nth_error (tx_output t') (N.to_nat n') <> None) ->
  tap_message t n prev leaf ty = tap_message t' n' prev' leaf' ty' ->
  broken \/
  (ty = ty' /\ leaf = leaf' /\ tx_version t = tx_version t' /\ tx_lock_time t = tx_lock_time t'
   /\ (N.testbit ty 7 = false -> n = n' /\ prev = prev'
         /\ map (fun i => (ti_txid i, ti_vout i)) (tx_input t) = map (fun i => (ti_txid i, ti_vout i)) (tx_input t')
         /\ map ti_sequence (tx_input t) = map ti_sequence (tx_input t'))
   /\ (N.testbit ty 7 = true -> exists i i' u, nth_error (tx_input t) (N.to_nat n) = Some i /\ nth_error (tx_input t') (N.to_nat n') = Some i'
         /\ ti_txid i = ti_txid i' /\ ti_vout i = ti_vout i' /\ ti_sequence i = ti_sequence i'
         /\ prev = PrevoutsOne n u /\ prev' = PrevoutsOne n' u)
   /\ (N.land ty 3 <> 2 -> N.land ty 3 <> 3 -> tx_output t = tx_output t')
   /\ (N.land ty 3 = 3 -> nth_error (tx_output t) (N.to_nat n) = nth_error (tx_output t') (N.to_nat n'))).
Proof.
  intros (Wv & Wl & _ & Wi & _ & Wo) (Wv' & Wl' & _ & Wi' & _ & Wo') Hty Hty' G G' Ll Ll' Sg Sg' H.
  unfold tap_message in H. cbv zeta in H. apply app_inj_len in H as [E H]; [|reflexivity]. injection E as E.
  apply (f_equal b2n) in E. rewrite !b2n_n2b in E by assumption. subst ty'.
  apply (le_app_inj 4) in H as [Ev H]; [|exact Wv|exact Wv']. apply (le_app_inj 4) in H as [El H]; [|exact Wl|exact Wl'].
  unfold given in G, G'.
  assert (Q : forall l k u, Forall wf_txout l -> nth_error l k = Some u -> wf_txout u).
  { intros l k u F N. apply nth_error_In in N. rewrite Forall_forall in F. auto. }
  assert (Tail : (if N.land ty 3 =? 3 then match nth_error (tx_output t) (N.to_nat n) with Some o => real_sha256 (enc_txout o) | None => [] end else [])
    ++ match leaf with Some h => h ++ [x00; xff; xff; xff; xff] | None => [] end =
    (if N.land ty 3 =? 3 then match nth_error (tx_output t') (N.to_nat n') with Some o => real_sha256 (enc_txout o) | None => [] end else [])
    ++ match leaf' with Some h => h ++ [x00; xff; xff; xff; xff] | None => [] end -> (leaf = None <-> leaf' = None) ->
    broken \/ (leaf = leaf' /\ (N.land ty 3 = 3 -> nth_error (tx_output t) (N.to_nat n) = nth_error (tx_output t') (N.to_nat n')))).
  { intros K Hn. rewrite <- N.eqb_eq. apply tail_inj; auto; try (intros u; apply Q; auto); rewrite N.eqb_eq; auto. }
  assert (Flag : forall r s, [match leaf with Some _ => x02 | None => x00 end] ++ r = [match leaf' with Some _ => x02 | None => x00 end] ++ s ->
    (leaf = None <-> leaf' = None) /\ r = s).
  { intros r s K. cbn [app] in K. injection K as K ->. split; [|reflexivity]. destruct leaf, leaf'; try discriminate K; split; congruence. }
  assert (Outs : forall r s, (if (N.land ty 3 =? 2) || (N.land ty 3 =? 3) then [] else real_sha256 (flat_map enc_txout (tx_output t))) ++ r
      = (if (N.land ty 3 =? 2) || (N.land ty 3 =? 3) then [] else real_sha256 (flat_map enc_txout (tx_output t'))) ++ s ->
    (broken \/ (N.land ty 3 <> 2 -> N.land ty 3 <> 3 -> tx_output t = tx_output t')) /\ r = s).
  { intros r s K. destruct ((N.land ty 3 =? 2) || (N.land ty 3 =? 3)) eqn:B.
    - split; [right; intros; lia|exact K].
    - apply sha_app_inj in K as [[K|K] ->]; (split; [|reflexivity]); [right; intros _ _; now apply txouts_inj|now left]. }
  destruct (N.testbit ty 7) eqn:A.
  - cbn [app] in H. apply Outs in H as [[O|O] H]; [now left|]. apply Flag in H as [Fl H].
    destruct G as (i & u & Hi & -> & Wu), G' as (i' & u' & Hi' & -> & Wu'). rewrite Hi, Hi' in H. cbn [one_prevout] in H.
    rewrite <- !app_assoc in H.
    assert (wf_txin i) by (apply nth_error_In in Hi; rewrite Forall_forall in Wi; auto).
    assert (wf_txin i') by (apply nth_error_In in Hi'; rewrite Forall_forall in Wi'; auto).
    apply outpoint_inj in H as [Eo H]; auto. injection Eo as Eo1 Eo2.
    apply (rt_inj wf_txout enc_txout dec_txout) in H as [-> H]; auto; [|exact dec_txout_rt].
    apply (le_app_inj 4) in H as [Es H]; [|now destruct H0 as (_ & _ & _ & ? & _)|now destruct H1 as (_ & _ & _ & ? & _)].
    destruct (Tail H Fl) as [B|[-> Ts]]; [now left|]. right.
    do 4 (split; [auto|]). split; [discriminate|]. split; [|auto]. intros _. exists i, i', u'. auto 8.
  - rewrite <- !app_assoc in H. sha H. sha H. sha H. sha H. apply Outs in H as [[O|O] H]; [now left|]. apply Flag in H as [Fl H].
    destruct G as (us & -> & Wu & Hn), G' as (us' & -> & Wu' & Hn'). cbn [all_prevouts] in *.
    apply (le_app_inj 4) in H as [-> H]; auto. destruct (Tail H Fl) as [B|[-> Ts]]; [now left|]. right.
    do 4 (split; [auto|]). split; [|split; [discriminate|auto]]. intros _. split; [reflexivity|].
    split; [f_equal; now apply prevouts_inj|]. split; [now apply outpoints_inj|now apply sequences_inj].
Qed.

Lemma real_taproot_inj t n prev leaf ty t' n' prev' leaf' ty' :
  real_taproot t n prev leaf ty = real_taproot t' n' prev' leaf' ty' ->
  broken \/ tap_message t n prev leaf ty = tap_message t' n' prev' leaf' ty'.
Proof.
  unfold real_taproot, tagged. cbv zeta. intros H. apply sha_inj in H as [H|H]; [right|now left].
  now apply app_inv_head, app_inv_head in H.
Qed.

Lemma with_bip341_anyone T t n us u leaf ty : In ty [0x81; 0x82; 0x83] -> nth_error us (N.to_nat n) = Some u ->
  @taproot_digest (with_bip341 T) t n (PrevoutsAll us) leaf ty = @taproot_digest (with_bip341 T) t n (PrevoutsOne n u) leaf ty.
Proof.
  intros Hty Hu. cbn [taproot_digest with_bip341]. unfold real_taproot, tap_message. cbv zeta. cbn [all_prevouts one_prevout]. rewrite Hu.
  assert (N.testbit ty 7 = true) as ->; [|reflexivity]. cbn in Hty. intuition (subst; reflexivity).
Qed.

(** ** BIP-143 *)

Lemma twice_inj a b : real_sha256 (real_sha256 a) = real_sha256 (real_sha256 b) -> a = b \/ broken.
Proof. intros H. apply sha_inj in H as [H|H]; [now apply sha_inj|now right]. Qed.
Lemma if_len (b : bool) (x y : bytes) n : length x = n -> length y = n -> length (if b then x else y) = n.
Proof. now destruct b. Qed.
Lemma zeros_len n : length (zeros n) = n.
Proof. apply repeat_length. Qed.

Lemma segwit_inj t n i code value ty t' n' i' code' value' ty' :
  wf_tx t -> wf_tx t' -> ty < 2 ^ 32 -> ty' < 2 ^ 32 -> wf_vec code -> wf_vec code' -> wf_u64 value -> wf_u64 value' ->
  nth_error (tx_input t) (N.to_nat n) = Some i -> nth_error (tx_input t') (N.to_nat n') = Some i' ->
  real_segwit t n code value ty = real_segwit t' n' code' value' ty' ->
  broken \/
  (ty = ty' /\ code = code' /\ value = value' /\ tx_version t = tx_version t' /\ tx_lock_time t = tx_lock_time t'
   /\ ti_txid i = ti_txid i' /\ ti_vout i = ti_vout i' /\ ti_sequence i = ti_sequence i'
   /\ (anyone ty = false ->
         map (fun i => (ti_txid i, ti_vout i)) (tx_input t) = map (fun i => (ti_txid i, ti_vout i)) (tx_input t'))
   /\ (anyone ty = false -> base_type ty <> 2 -> base_type ty <> 3 ->
         map ti_sequence (tx_input t) = map ti_sequence (tx_input t'))
   /\ (base_type ty <> 2 -> base_type ty <> 3 -> tx_output t = tx_output t')
   /\ (base_type ty = 3 -> forall o o', nth_error (tx_output t) (N.to_nat n) = Some o -> nth_error (tx_output t') (N.to_nat n') = Some o' -> o = o')).
Proof.
  intros (Wv & Wl & _ & Wi & _ & Wo) (Wv' & Wl' & _ & Wi' & _ & Wo') Hty Hty' Hc Hc' Hx Hx' Hi Hi' H.
  assert (Qi : wf_txin i) by (apply nth_error_In in Hi; rewrite Forall_forall in Wi; auto).
  assert (Qi' : wf_txin i') by (apply nth_error_In in Hi'; rewrite Forall_forall in Wi'; auto).
  unfold real_segwit in H. cbv zeta in H. rewrite Hi, Hi' in H. apply twice_inj in H as [H|H]; [|now left].
  apply (le_app_inj 4) in H as [Ev H]; [|exact Wv|exact Wv'].
  apply app_inj_len in H as [Ep H]; [|rewrite !(if_len _ _ _ 32); auto using zeros_len, real_sha256_len].
  apply app_inj_len in H as [Es H]; [|rewrite !(if_len _ _ _ 32); auto using zeros_len, real_sha256_len].
  fold (enc_outpoint i) (enc_outpoint i') in H.
  apply outpoint_inj in H as [Eo H]; auto. injection Eo as Eo1 Eo2.
  apply (rt_inj wf_vec enc_bytes dec_bytes) in H as [-> H]; auto; [|exact dec_bytes_rt].
  apply (le_app_inj 8) in H as [-> H]; [|exact Hx|exact Hx'].
  apply (le_app_inj 4) in H as [Eq H]; [|now destruct Qi as (_ & _ & _ & ? & _)|now destruct Qi' as (_ & _ & _ & ? & _)].
  apply app_inj_len in H as [Eu H]; [|rewrite !(if_len _ _ _ 32); auto using zeros_len, real_sha256_len, if_len].
  apply (le_app_inj 4) in H as [El H]; [|exact Wl|exact Wl'].
  apply (le_enc_inj 4) in H as ->; [|exact Hty|exact Hty'].
  assert (A : broken \/ (anyone ty' = false ->
    map (fun i => (ti_txid i, ti_vout i)) (tx_input t) = map (fun i => (ti_txid i, ti_vout i)) (tx_input t'))).
  { destruct (anyone ty'); [right; discriminate|]. apply twice_inj in Ep as [Ep|Ep]; [|now left]. right. intros _. now apply outpoints_inj. }
  assert (B : broken \/ (anyone ty' = false -> base_type ty' <> 2 -> base_type ty' <> 3 ->
    map ti_sequence (tx_input t) = map ti_sequence (tx_input t'))).
  { destruct (anyone ty'); [right; discriminate|]. destruct (base_type ty' =? 3) eqn:E3; [right; lia|]. destruct (base_type ty' =? 2) eqn:E2; [right; lia|].
    apply twice_inj in Es as [Es|Es]; [|now left]. right. intros _ _ _. now apply sequences_inj. }
  assert (D : broken \/ ((base_type ty' <> 2 -> base_type ty' <> 3 -> tx_output t = tx_output t') /\
    (base_type ty' = 3 -> forall o o', nth_error (tx_output t) (N.to_nat n) = Some o -> nth_error (tx_output t') (N.to_nat n') = Some o' -> o = o'))).
  { destruct (base_type ty' =? 3) eqn:E3; destruct (base_type ty' =? 2) eqn:E2; cbn [negb andb] in Eu; [lia| |right; split; lia|].
    - assert (F : forall t n (o : txout), nth_error (tx_output t) (N.to_nat n) = Some o ->
        (n <? blen (tx_output t)) = true /\ firstn 1 (skipn (N.to_nat n) (tx_output t)) = [o]).
      { clear. intros t n o E. assert (N.to_nat n < length (tx_output t))%nat by (apply nth_error_Some; congruence).
        split; [unfold blen; lia|]. apply nth_error_split in E as (l1 & l2 & -> & <-). rewrite skipn_app, skipn_all, Nat.sub_diag. reflexivity. }
      destruct (nth_error (tx_output t) (N.to_nat n)) as [o|] eqn:E; [|right; split; [lia|discriminate]].
      destruct (nth_error (tx_output t') (N.to_nat n')) as [o'|] eqn:E'; [|right; split; [lia|discriminate]].
      destruct (F t n o E) as [F1 F2], (F t' n' o' E') as [F1' F2']. rewrite F1, F1', F2, F2' in Eu. cbn [flat_map] in Eu. rewrite !app_nil_r in Eu.
      apply twice_inj in Eu as [Eu|Eu]; [|now left]. right. split; [lia|]. intros _ q q' Q Q'. injection Q as <-. injection Q' as <-.
      apply nth_error_In in E. apply nth_error_In in E'. rewrite Forall_forall in Wo, Wo'.
      destruct (rt_inj wf_txout enc_txout dec_txout o o' [] []) as [-> _]; auto.
      + exact dec_txout_rt.
      + now rewrite !app_nil_r.
    - apply twice_inj in Eu as [Eu|Eu]; [|now left]. right. split; [|lia]. intros _ _. now apply txouts_inj. }
  destruct A as [A|A]; [now left|]. destruct B as [B|B]; [now left|]. destruct D as [D|[D1 D2]]; [now left|].
  right. do 8 (split; [auto|]). auto.
Qed.

(** ** Legacy *)

Lemma all_inj {A B} (Q : A -> Prop) (f : A -> B) (e : A -> bytes) :
  (forall a b r s, Q a -> Q b -> e a ++ r = e b ++ s -> f a = f b /\ r = s) ->
  forall l l' r s, Forall Q l -> Forall Q l' -> length l = length l' -> enc_all e l ++ r = enc_all e l' ++ s -> map f l = map f l' /\ r = s.
Proof.
  intros Inj. induction l as [|a l IH]; intros [|b l'] r s Hl Hl' E H; try discriminate E; [auto|].
  apply Forall_cons_iff in Hl as [Ha Hl]. apply Forall_cons_iff in Hl' as [Hb Hl']. rewrite !enc_all_cons, <- !app_assoc in H.
  apply Inj in H as [Ef H]; auto. injection E as E. destruct (IH l' r s Hl Hl' E H) as [El ->]. cbn [map]. rewrite Ef, El. auto.
Qed.
Lemma vec_inj {A B} (Q : A -> Prop) (f : A -> B) (e : A -> bytes) :
  (forall a b r s, Q a -> Q b -> e a ++ r = e b ++ s -> f a = f b /\ r = s) ->
  forall l l' r s, Forall Q l -> Forall Q l' -> wf_vec l -> wf_vec l' -> enc_vec e l ++ r = enc_vec e l' ++ s -> map f l = map f l' /\ r = s.
Proof.
  intros Inj l l' r s Hl Hl' W W' H. unfold enc_vec in H. rewrite <- !app_assoc in H.
  apply (rt_inj (fun n => n < U64) enc_varint dec_varint) in H as [En H]; [|exact dec_varint_rt|exact W|exact W'].
  apply (all_inj Q f e Inj) in H; auto. unfold blen in En. lia.
Qed.

(** What is written of an input. *)
Definition in_fields (i : txin) : bytes * N * bytes * N := (ti_txid i, ti_vout i, ti_script_sig i, ti_sequence i).
Lemma txin_inj i j r s : wf_txin i -> wf_txin j -> enc_txin i ++ r = enc_txin j ++ s -> in_fields i = in_fields j /\ r = s.
Proof.
  intros (Li & Vi & Si & Qi & _) (Lj & Vj & Sj & Qj & _) H. unfold enc_txin, enc_u32 in H. rewrite <- !app_assoc in H.
  apply app_inj_len in H as [E1 H]; [|congruence]. apply (le_app_inj 4) in H as [E2 H]; [|exact Vi|exact Vj].
  apply (rt_inj wf_vec enc_bytes dec_bytes) in H as [E3 H]; auto; [|exact dec_bytes_rt].
  apply (le_app_inj 4) in H as [E4 H]; [|exact Qi|exact Qj]. unfold in_fields. rewrite E1, E2, E3, E4. auto.
Qed.
Lemma nowit_inj t t' r s : wf_tx t -> wf_tx t' -> enc_tx_nowit t ++ r = enc_tx_nowit t' ++ s ->
  tx_version t = tx_version t' /\ tx_lock_time t = tx_lock_time t' /\ map in_fields (tx_input t) = map in_fields (tx_input t')
  /\ tx_output t = tx_output t' /\ r = s.
Proof.
  intros (Wv & Wl & Wn & Wi & Wm & Wo) (Wv' & Wl' & Wn' & Wi' & Wm' & Wo') H. unfold enc_tx_nowit, enc_u32 in H. rewrite <- !app_assoc in H.
  apply (le_app_inj 4) in H as [E1 H]; [|exact Wv|exact Wv'].
  apply (vec_inj wf_txin in_fields enc_txin txin_inj) in H as [E2 H]; auto.
  apply (vec_inj wf_txout (fun o => o) enc_txout) in H as [E3 H]; auto.
  2:{ intros a b r' s' Ha Hb. apply (rt_inj wf_txout enc_txout dec_txout); auto. exact dec_txout_rt. }
  rewrite !map_id in E3. apply (le_app_inj 4) in H as [E4 H]; [auto|exact Wl|exact Wl'].
Qed.

(** The inputs and outputs that are hashed. *)
Definition leg_in (n : N) (code : bytes) (ty : N) (p : N * txin) : txin :=
  let i := snd p in
  if fst p =? n then TxIn (ti_txid i) (ti_vout i) code (ti_sequence i) []
  else TxIn (ti_txid i) (ti_vout i) [] (if (base_type ty =? 2) || (base_type ty =? 3) then 0 else ti_sequence i) [].
Definition leg_ins (t : tx) (n : N) (code : bytes) (ty : N) : list txin :=
  map (leg_in n code ty)
    (filter (fun p => negb (anyone ty) || (fst p =? n)) (combine (map N.of_nat (seq 0 (length (tx_input t)))) (tx_input t))).
Definition leg_outs (t : tx) (n : N) (ty : N) : list txout :=
  if base_type ty =? 2 then []
  else if base_type ty =? 3 then repeat (TxOut (2 ^ 64 - 1) []) (N.to_nat n) ++ firstn 1 (skipn (N.to_nat n) (tx_output t))
  else tx_output t.
Lemma legacy_eq t n code ty : (base_type ty = 3 -> n < blen (tx_output t)) ->
  real_legacy t n code ty = real_sha256 (real_sha256 (enc_tx_nowit (Tx (tx_version t) (tx_lock_time t) (leg_ins t n code ty) (leg_outs t n ty)) ++ le_enc 4 ty)).
Proof.
  intros H. unfold real_legacy. replace ((base_type ty =? 3) && (blen (tx_output t) <=? n)) with false; [reflexivity|].
  symmetry. apply andb_false_iff. destruct (base_type ty =? 3) eqn:E; [right; lia|now left].
Qed.

Lemma numbered_nth (l : list txin) k : nth_error (combine (map N.of_nat (seq 0 (length l))) l) k = option_map (fun i => (N.of_nat k, i)) (nth_error l k).
Proof.
  enough (H : forall (l : list txin) a k, nth_error (combine (map N.of_nat (seq a (length l))) l) k = option_map (fun i => (N.of_nat (a + k), i)) (nth_error l k)) by apply H.
  clear l k. induction l as [|x l IH]; intros a [|k]; cbn; try reflexivity; [now rewrite Nat.add_0_r|]. rewrite IH. now rewrite Nat.add_succ_r.
Qed.
Lemma numbered_one (l : list txin) n i : nth_error l (N.to_nat n) = Some i ->
  filter (fun p : N * txin => fst p =? n) (combine (map N.of_nat (seq 0 (length l))) l) = [(n, i)].
Proof.
  enough (H : forall (l : list txin) a n, (nth_error l n = Some i ->
      filter (fun p : N * txin => fst p =? N.of_nat (a + n)) (combine (map N.of_nat (seq a (length l))) l) = [(N.of_nat (a + n), i)])
      /\ forall b, (b < a)%nat -> filter (fun p : N * txin => fst p =? N.of_nat b) (combine (map N.of_nat (seq a (length l))) l) = []).
  { intros E. apply (proj1 (H l 0%nat (N.to_nat n))) in E. rewrite Nat.add_0_l, N2Nat.id in E. exact E. }
  clear l n. induction l as [|x l IH]; intros a n; (split; [intros E|intros b Hb]); cbn [length seq map combine filter fst]; try reflexivity.
  - now destruct n.
  - destruct n as [|n]; cbn in E.
    + injection E as ->. rewrite Nat.add_0_r, N.eqb_refl. f_equal. apply (proj2 (IH (S a) 0%nat)). lia.
    + replace (N.of_nat a =? N.of_nat (a + S n)) with false by lia. rewrite Nat.add_succ_r, <- Nat.add_succ_l. now apply (proj1 (IH (S a) n)).
  - replace (N.of_nat a =? N.of_nat b) with false by lia. apply (proj2 (IH (S a) 0%nat)). lia.
Qed.
Lemma filter_all {A} (l : list A) : filter (fun _ => true) l = l.
Proof. induction l; cbn; congruence. Qed.

Lemma leg_ins_all t n code ty : anyone ty = false ->
  leg_ins t n code ty = map (leg_in n code ty) (combine (map N.of_nat (seq 0 (length (tx_input t)))) (tx_input t)).
Proof. intros E. unfold leg_ins. rewrite E. cbn [negb orb]. now rewrite filter_all. Qed.
Lemma leg_ins_one t n i code ty : anyone ty = true -> nth_error (tx_input t) (N.to_nat n) = Some i ->
  leg_ins t n code ty = [TxIn (ti_txid i) (ti_vout i) code (ti_sequence i) []].
Proof. intros E H. unfold leg_ins. rewrite E. cbn [negb orb]. rewrite (numbered_one _ _ _ H). cbn [map]. unfold leg_in. cbn [fst snd]. now rewrite N.eqb_refl. Qed.
Lemma leg_in_wf n code ty k i : wf_txin i -> wf_vec code -> wf_txin (leg_in n code ty (k, i)).
Proof.
  intros (L & V & Sc & Q & _) Wc. unfold leg_in. cbn [fst snd].
  destruct (k =? n); (split; [exact L|]); (split; [exact V|]).
  - split; [exact Wc|]. split; [exact Q|apply wf_witness_nil].
  - split; [reflexivity|]. split; [|apply wf_witness_nil]. cbn. destruct (_ || _); [reflexivity|exact Q].
Qed.
Lemma leg_wf t n code ty : wf_tx t -> wf_vec code -> (base_type ty = 3 -> n < blen (tx_output t)) ->
  wf_tx (Tx (tx_version t) (tx_lock_time t) (leg_ins t n code ty) (leg_outs t n ty)).
Proof.
  intros (Wv & Wl & Wn & Wi & Wm & Wo) Wc H3. split; [exact Wv|]. split; [exact Wl|]. cbn [tx_input tx_output].
  assert (Len : forall A (f : A -> bool) l, (length (filter f l) <= length l)%nat).
  { intros A f l. induction l as [|a l IH]; cbn; [lia|]. destruct (f a); cbn; lia. }
  split; [|split; [|split]].
  - unfold wf_vec, blen, leg_ins in *. rewrite map_length.
    pose proof (Len _ (fun p : N * txin => negb (anyone ty) || (fst p =? n)) (combine (map N.of_nat (seq 0 (length (tx_input t)))) (tx_input t))) as Q.
    rewrite combine_length in Q. lia.
  - unfold leg_ins. rewrite Forall_forall in *. intros x Hx. apply in_map_iff in Hx as ([k i] & <- & Hi). apply filter_In in Hi as [Hi _].
    apply in_combine_r in Hi. apply leg_in_wf; auto.
  - unfold leg_outs. destruct (base_type ty =? 2); [reflexivity|]. destruct (base_type ty =? 3) eqn:E; [|exact Wm].
    unfold wf_vec, blen in *. rewrite app_length, repeat_length, firstn_length. lia.
  - unfold leg_outs. destruct (base_type ty =? 2); [constructor|]. destruct (base_type ty =? 3) eqn:E; [|exact Wo].
    apply Forall_app. split.
    + apply Forall_forall. intros o Ho. apply repeat_spec in Ho as ->. split; reflexivity.
    + rewrite Forall_forall in *. intros o Ho. apply Wo. apply (In_nth_error) in Ho as [k Hk].
      destruct k as [|k]; [|destruct (skipn (N.to_nat n) (tx_output t)) as [|? l]; cbn in Hk; destruct k; discriminate Hk].
      destruct (skipn (N.to_nat n) (tx_output t)) as [|o' l] eqn:Es; [discriminate Hk|]. injection Hk as ->.
      rewrite <- (firstn_skipn (N.to_nat n) (tx_output t)), Es. apply in_app_iff. right. now left.
Qed.

Lemma legacy_inj t n i code ty t' n' i' code' ty' :
  wf_tx t -> wf_tx t' -> ty < 2 ^ 32 -> ty' < 2 ^ 32 -> wf_vec code -> wf_vec code' ->
  nth_error (tx_input t) (N.to_nat n) = Some i -> nth_error (tx_input t') (N.to_nat n') = Some i' ->
  (base_type ty = 3 -> n < blen (tx_output t)) -> (base_type ty' = 3 -> n' < blen (tx_output t')) ->
  real_legacy t n code ty = real_legacy t' n' code' ty' ->
  broken \/
  (ty = ty' /\ tx_version t = tx_version t' /\ tx_lock_time t = tx_lock_time t'
   /\ (anyone ty = false ->
         map (fun i => (ti_txid i, ti_vout i)) (tx_input t) = map (fun i => (ti_txid i, ti_vout i)) (tx_input t'))
   /\ (anyone ty = false -> base_type ty <> 2 -> base_type ty <> 3 ->
         map ti_sequence (tx_input t) = map ti_sequence (tx_input t'))
   /\ (anyone ty = false -> code <> [] -> n = n')
   /\ (anyone ty = true \/ code <> [] -> ti_txid i = ti_txid i' /\ ti_vout i = ti_vout i' /\ ti_sequence i = ti_sequence i' /\ code = code')
   /\ (base_type ty <> 2 -> base_type ty <> 3 -> tx_output t = tx_output t')
   /\ (base_type ty = 3 -> n = n' /\ nth_error (tx_output t) (N.to_nat n) = nth_error (tx_output t') (N.to_nat n'))).
Proof.
  intros W W' Hty Hty' Hc Hc' Hi Hi' H3 H3' H. rewrite !legacy_eq in H by assumption. apply twice_inj in H as [H|H]; [|now left].
  destruct (nowit_inj _ _ _ _ (leg_wf _ _ _ _ W Hc H3) (leg_wf _ _ _ _ W' Hc' H3') H) as (Ev & El & Ei & Eo & Et).
  cbn [tx_version tx_lock_time tx_input tx_output] in *. right.
  apply (le_enc_inj 4) in Et as <-; [|exact Hty|exact Hty'].
  assert (Fst : forall A (f : txin -> A) (g : N * txin -> A) l, (forall p, g p = f (snd p)) ->
      map g (combine (map N.of_nat (seq 0 (length l))) l) = map f l).
  { intros A f g l Hg. rewrite (map_ext _ (fun p => f (snd p)) Hg). generalize 0%nat as a. induction l as [|x l IH]; intros a; cbn; [reflexivity|]. f_equal. apply IH. }
  split; [reflexivity|]. split; [exact Ev|]. split; [exact El|].
  assert (A1 : anyone ty = false -> map (fun i => (ti_txid i, ti_vout i)) (tx_input t) = map (fun i => (ti_txid i, ti_vout i)) (tx_input t')).
  { intros A. rewrite !leg_ins_all in Ei by assumption. apply (f_equal (map (fun q : bytes * N * bytes * N => (fst (fst (fst q)), snd (fst (fst q)))))) in Ei.
    rewrite !map_map in Ei. rewrite !(Fst _ (fun i => (ti_txid i, ti_vout i))) in Ei; [exact Ei| |]; intros [k j]; unfold leg_in; cbn [fst snd]; now destruct (k =? _). }
  assert (N1 : anyone ty = false -> code <> [] -> n = n').
  { intros A Nc. rewrite !leg_ins_all in Ei by assumption. apply (f_equal (fun l => nth_error l (N.to_nat n))) in Ei.
    rewrite !nth_error_map, !numbered_nth, Hi in Ei. cbn [option_map] in Ei. destruct (nth_error (tx_input t') (N.to_nat n)) as [j|]; cbn [option_map] in Ei; [|discriminate Ei].
    unfold leg_in in Ei. cbn [fst snd] in Ei. rewrite N2Nat.id, N.eqb_refl in Ei. destruct (n =? n') eqn:E; [lia|]. exfalso.
    apply (f_equal (option_map (fun q : bytes * N * bytes * N => snd (fst q)))) in Ei. cbn in Ei. injection Ei as Ei. congruence. }
  split; [exact A1|]. split; [|split; [exact N1|split; [|split]]].
  - intros A B2 B3. rewrite !leg_ins_all in Ei by assumption. apply (f_equal (map (fun q : bytes * N * bytes * N => snd q))) in Ei.
    rewrite !map_map in Ei. replace (base_type ty =? 2) with false in * by lia. 
    rewrite !(Fst _ ti_sequence) in Ei; [exact Ei| |]; intros [k j]; unfold leg_in; cbn [fst snd];
      (destruct (base_type ty =? 2) eqn:Q2; [lia|]); (destruct (base_type ty =? 3) eqn:Q3; [lia|]); now destruct (k =? _).
  - intros K. destruct (anyone ty) eqn:A.
    + rewrite (leg_ins_one t n i code ty A Hi), (leg_ins_one t' n' i' code' ty A Hi') in Ei. cbn in Ei. unfold in_fields in Ei. cbn in Ei. injection Ei as -> -> -> ->. auto.
    + destruct K as [K|K]; [discriminate K|]. pose proof (N1 eq_refl K) as <-. rewrite !leg_ins_all in Ei by assumption. apply (f_equal (fun l => nth_error l (N.to_nat n))) in Ei.
      rewrite !nth_error_map, !numbered_nth, Hi, Hi' in Ei. cbn [option_map] in Ei. unfold leg_in in Ei. cbn [fst snd] in Ei. rewrite N2Nat.id, N.eqb_refl in Ei.
      unfold in_fields in Ei. cbn in Ei. injection Ei as -> -> -> ->. auto.
  - intros B2 B3. unfold leg_outs in Eo. replace (base_type ty =? 2) with false in Eo by lia. replace (base_type ty =? 3) with false in Eo by lia. exact Eo.
  - intros B3. unfold leg_outs in Eo. rewrite B3 in Eo. cbn in Eo. specialize (H3 B3). specialize (H3' B3).
    assert (F : forall t n, n < blen (tx_output t) -> exists o, nth_error (tx_output t) (N.to_nat n) = Some o /\ firstn 1 (skipn (N.to_nat n) (tx_output t)) = [o]).
    { clear. intros t n E. destruct (nth_error (tx_output t) (N.to_nat n)) as [o|] eqn:Eo; [|apply nth_error_None in Eo; unfold blen in E; lia].
      exists o. split; [reflexivity|]. apply nth_error_split in Eo as (l1 & l2 & -> & <-). rewrite skipn_app, skipn_all, Nat.sub_diag. reflexivity. }
    destruct (F t n H3) as (o & E1 & E2), (F t' n' H3') as (o' & E1' & E2').
    change (repeat (TxOut 18446744073709551615 []) (N.to_nat n) ++ firstn 1 (skipn (N.to_nat n) (tx_output t)) = repeat (TxOut 18446744073709551615 []) (N.to_nat n') ++ firstn 1 (skipn (N.to_nat n') (tx_output t'))) in Eo.
    rewrite E2, E2' in Eo. apply app_inj_tail in Eo as [Er Eo]. apply (f_equal (@length txout)) in Er. rewrite !repeat_length in Er.
    split; [lia|]. congruence.
Qed.

(** The codecs of the model implement the wire format of [SpecCodec]. *)
From Verif Require Import Base Consensus ConsensusFacts Ext Raw RawFacts SpecCodec.
Local Open Scope N_scope.

Lemma le_value_dec b : le_value b = le_dec b.
Proof. induction b as [|x b IH]; cbn; [reflexivity|]. rewrite IH. lia. Qed.

Lemma enc_varint_spec n : n < 2 ^ 64 -> compact_size n (enc_varint n).
Proof.
  intros H. unfold enc_varint. change (2 ^ 64) with 18446744073709551616 in H.
  destruct (n <? 253) eqn:E1.
  { rewrite <- (b2n_n2b n) at 1 by lia. constructor. rewrite b2n_n2b; lia. }
  destruct (n <? 65536) eqn:E2.
  { assert (V : le_value (le_enc 2 n) = n) by (rewrite le_value_dec, le_dec_enc; [reflexivity|cbn; lia]).
    rewrite <- V at 1. constructor; [apply le_enc_length|lia]. }
  destruct (n <? 4294967296) eqn:E3.
  { assert (V : le_value (le_enc 4 n) = n) by (rewrite le_value_dec, le_dec_enc; [reflexivity|cbn; lia]).
    rewrite <- V at 1. constructor; [apply le_enc_length|]. change (2 ^ 16) with 65536. lia. }
  assert (V : le_value (le_enc 8 n) = n) by (rewrite le_value_dec, le_dec_enc; [reflexivity|cbn; lia]).
  rewrite <- V at 1. constructor; [apply le_enc_length|]. change (2 ^ 32) with 4294967296. lia.
Qed.

Lemma le_enc_value b k : length b = k -> le_enc k (le_value b) = b.
Proof. intros <-. rewrite le_value_dec. apply le_enc_dec. Qed.

Lemma le_value_lt b : le_value b < 256 ^ N.of_nat (length b).
Proof. rewrite le_value_dec. apply le_dec_lt. Qed.

Lemma compact_size_enc n c : compact_size n c -> c = enc_varint n /\ n < 2 ^ 64.
Proof.
  intros H. change (2 ^ 64) with 18446744073709551616. destruct H as [b Hb|b L H|b L H|b L H].
  - unfold enc_varint. destruct (b2n b <? 253) eqn:E; [|lia]. rewrite n2b_b2n. split; [reflexivity|lia].
  - pose proof (le_value_lt b) as B. rewrite L in B. change (256 ^ N.of_nat 2) with 65536 in B.
    unfold enc_varint. destruct (le_value b <? 253) eqn:E; [lia|].
    destruct (le_value b <? 65536) eqn:E2; [|lia]. rewrite le_enc_value by assumption. split; [reflexivity|lia].
  - pose proof (le_value_lt b) as B. rewrite L in B. change (256 ^ N.of_nat 4) with 4294967296 in B.
    change (2 ^ 16) with 65536 in H.
    unfold enc_varint. destruct (le_value b <? 253) eqn:E; [lia|].
    destruct (le_value b <? 65536) eqn:E2; [lia|]. destruct (le_value b <? 4294967296) eqn:E3; [|lia].
    rewrite le_enc_value by assumption. split; [reflexivity|lia].
  - pose proof (le_value_lt b) as B. rewrite L in B. change (256 ^ N.of_nat 8) with 18446744073709551616 in B.
    change (2 ^ 32) with 4294967296 in H.
    unfold enc_varint. destruct (le_value b <? 253) eqn:E; [lia|].
    destruct (le_value b <? 65536) eqn:E2; [lia|]. destruct (le_value b <? 4294967296) eqn:E3; [lia|].
    rewrite le_enc_value by assumption. split; [reflexivity|lia].
Qed.

Lemma dec_varint_spec bs n rest :
  dec_varint bs = Ok (n, rest) <-> exists c, compact_size n c /\ bs = c ++ rest.
Proof.
  split.
  - intros H. apply dec_varint_canon in H as [-> H]. exists (enc_varint n). split; [|reflexivity].
    now apply enc_varint_spec.
  - intros (c & Hc & ->). apply compact_size_enc in Hc as [-> Hn]. now apply dec_varint_rt.
Qed.

Lemma ser_pair_spec p : wf_pair p -> pair_wire p (ser_pair p).
Proof.
  intros [Hk Hv]. unfold wf_key, wf_value, MAX_VEC_SIZE, MAX_VALUE in *.
  exists (enc_varint (1 + blen (k_data (p_key p)))), (enc_varint (blen (p_value p))). repeat split.
  - apply enc_varint_spec. change (2 ^ 64) with 18446744073709551616. lia.
  - apply enc_varint_spec. change (2 ^ 64) with 18446744073709551616. lia.
  - unfold ser_pair, ser_key, enc_bytes. rewrite (N.add_comm 1). rewrite <- !app_assoc. reflexivity.
Qed.

Lemma pair_wire_ser p b : pair_wire p b -> b = ser_pair p.
Proof.
  intros (kl & vl & Hk & Hv & ->). apply compact_size_enc in Hk as [-> _].
  apply compact_size_enc in Hv as [-> _].
  unfold ser_pair, ser_key, enc_bytes. rewrite (N.add_comm 1). rewrite <- !app_assoc. reflexivity.
Qed.

Lemma enc_propkey_spec k : blen (pk_prefix k) < 2 ^ 64 -> propkey_wire k (enc_propkey k).
Proof.
  intros H. exists (enc_varint (blen (pk_prefix k))). split; [now apply enc_varint_spec|].
  unfold enc_propkey, enc_bytes. now rewrite <- !app_assoc.
Qed.

Lemma map_wire_ser l b : map_wire l b -> b = ser_pairs l.
Proof.
  induction 1 as [|p l b c H1 H2 IH]; [reflexivity|]. apply pair_wire_ser in H1. subst.
  unfold ser_pairs. now rewrite enc_all_cons, <- app_assoc.
Qed.

Lemma ser_pairs_spec l : Forall wf_pair l -> map_wire l (ser_pairs l).
Proof.
  induction 1 as [|p l H1 H2 IH]; [constructor|].
  unfold ser_pairs. rewrite enc_all_cons, <- app_assoc. constructor; [now apply ser_pair_spec|exact IH].
Qed.

Lemma ser_pair_prefix_free p q a b :
  blen (k_data (p_key p)) + 1 < U64 -> wf_vec (p_value p) ->
  blen (k_data (p_key q)) + 1 < U64 -> wf_vec (p_value q) ->
  ser_pair p ++ a = ser_pair q ++ b -> p = q /\ a = b.
Proof.
  destruct p as [[t d] v], q as [[t' d'] v']. cbn [p_key p_value k_data].
  intros H1 H2 H3 H4 H. unfold ser_pair, ser_key in H. cbn [p_key p_value k_data k_type] in H.
  rewrite <- !app_assoc in H. cbn [app] in H.
  match type of H with ?x = ?y => assert (D : dec_varint x = dec_varint y) by now rewrite H end.
  rewrite !dec_varint_rt in D by assumption. injection D as D1 Dt D2.
  assert (Hl : length d = length d') by (unfold blen in D1; lia). subst t'.
  apply app_inv_len in D2 as [-> D2]; [|exact Hl].
  match type of D2 with ?x = ?y => assert (D : dec_bytes x = dec_bytes y) by now rewrite D2 end.
  rewrite !dec_bytes_rt in D by assumption. injection D as -> ->. auto.
Qed.

(** A value beyond the limit is written but not read. *)
Lemma dec_pair_long p rest : wf_key (p_key p) -> wf_vec (p_value p) -> ~ wf_value (p_value p) ->
  dec_pair (ser_pair p ++ rest) = Err (SConsensusEncoding CIo).
Proof.
  intros Hk Hv Hn. unfold ser_pair, dec_pair. rewrite <- app_assoc, dec_key_rt by assumption. cbn [bind].
  unfold dec_value, enc_bytes. rewrite <- app_assoc, dec_varint_rt by assumption. cbn [bind].
  destruct (_ <? _) eqn:E; [reflexivity|]. apply value_limit in E. contradiction.
Qed.

(** ** Signatures: which byte strings stand for a value *)
From Verif Require Import Serialize SerializeFacts.

Section Sigs.
Context `{X : Ext} {L : ExtLaws X}.

Lemma removelast_last {A} (l : list A) d : l <> [] -> l = removelast l ++ [last l d].
Proof. apply app_removelast_last. Qed.

Lemma de_esig_accepts b s :
  de_esig b = Ok s -> exists d, der_parse d = Some (es_der s) /\ b = d ++ [n2b (es_type s)].
Proof.
  unfold de_esig. destruct b as [|x b]; [discriminate|].
  destruct (ecdsa_sighash_std _) eqn:E; cbn [negb]; [|discriminate].
  destruct (der_parse _) as [d|] eqn:D; [|discriminate]. intros H. inj H. cbn [es_der es_type].
  exists (removelast (x :: b)). split; [exact D|]. rewrite n2b_b2n. now apply removelast_last.
Qed.

Lemma de_tsig_accepts b s :
  de_tsig b = Ok s -> b = ser_tsig s \/ (ts_type s = 0 /\ b = ts_sig s ++ [x00]).
Proof.
  unfold de_tsig, ser_tsig. destruct (blen b =? 64) eqn:E1.
  - intros H. inj H. left. reflexivity.
  - destruct (blen b =? 65) eqn:E2; [|discriminate].
    destruct (tap_sighash_std _) eqn:E; [|discriminate]. intros H. inj H. cbn [ts_sig ts_type].
    assert (Hne : b <> []) by (intros ->; discriminate E2).
    pose proof (removelast_last b x00 Hne) as R.
    destruct (b2n (last b x00) =? 0) eqn:Z.
    + right. split; [lia|]. rewrite R at 1. f_equal. f_equal. apply b2n_inj. change (b2n x00) with 0. lia.
    + left. rewrite n2b_b2n. exact R.
Qed.

Lemma canonical_leftover {A} (ser : A -> bytes) de :
  canonical ser de -> forall v t, de (ser v ++ t) = Ok v -> t = [].
Proof.
  intros Hc v t H. apply Hc in H. rewrite <- (app_nil_r (ser v)) in H at 2.
  now apply app_inv_head in H.
Qed.

Lemma xonly_canonical : canonical ser_xonly de_xonly.
Proof. intros b a. unfold de_xonly, ser_xonly. destruct (_ && _)%bool; [|discriminate]. now intros [= ->]. Qed.
Lemma dleq_canonical : canonical ser_dleq de_dleq.
Proof.
  intros b a. unfold de_dleq, ser_dleq, dleq_try_from. destruct (_ =? _); cbn; [|discriminate].
  now intros [= ->].
Qed.
Lemma height_canonical : canonical ser_height de_height.
Proof.
  intros b a H. unfold de_height in H. binds H. apply de_u32_inv in Hx as [-> _].
  destruct (_ <? _); [|discriminate]. now inv H.
Qed.
Lemma time_canonical : canonical ser_time de_time.
Proof.
  intros b a H. unfold de_time in H. binds H. apply de_u32_inv in Hx as [-> _].
  destruct (_ <=? _); [|discriminate]. now inv H.
Qed.
Lemma u32_canonical : canonical ser_u32 de_u32.
Proof. exact (de_consensus_canonical _ _ _ dec_u32_canon). Qed.
Lemma amount_canonical : canonical ser_amount de_amount.
Proof. exact (de_consensus_canonical _ _ _ dec_u64_canon). Qed.
Lemma tx_canonical : canonical ser_tx de_tx.
Proof. exact (de_consensus_canonical _ _ _ dec_tx_canon). Qed.
Lemma txout_canonical : canonical ser_txout de_txout.
Proof. exact (de_consensus_canonical _ _ _ dec_txout_canon). Qed.
Lemma witness_canonical : canonical ser_witness de_witness.
Proof. exact (de_consensus_canonical _ _ _ dec_witness_canon). Qed.

End Sigs.

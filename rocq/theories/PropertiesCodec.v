(** Properties C14, C15, C43, C54: the codecs of numbers, pairs and field values. *)
From Verif Require Import Base Consensus ConsensusFacts Ext ExtInstance Raw RawFacts
  TapTree TapTreeFacts Serialize SerializeFacts SpecCodec SpecCodecFacts.
From Coq Require Import Permutation.
Local Open Scope N_scope.

(** ** C14: compact sizes are canonical *)

(** The decoder reads exactly the compact size encodings, and nothing behind them. *)
Theorem C14_varint_decodes_exactly : forall bs n rest,
  dec_varint bs = Ok (n, rest) <-> exists c, compact_size n c /\ bs = c ++ rest.
Proof. exact dec_varint_spec. Qed.
Print Assumptions C14_varint_decodes_exactly.

(** The encoder produces, for every [u64], the one encoding there is. *)
Theorem C14_varint_bijection : forall n,
  n < 2 ^ 64 ->
  (forall c, compact_size n c <-> c = enc_varint n) /\
  (forall rest, dec_varint (enc_varint n ++ rest) = Ok (n, rest)).
Proof.
  intros n H. split.
  - intros c. split; [apply compact_size_enc|intros ->; now apply enc_varint_spec].
  - intros rest. now apply dec_varint_rt.
Qed.
Print Assumptions C14_varint_bijection.

(** Encodings of numbers beyond [u64] do not exist. *)
Theorem C14_varint_range : forall n c, compact_size n c -> n < 2 ^ 64.
Proof. intros n c H. now apply compact_size_enc in H. Qed.
Print Assumptions C14_varint_range.

Example C14_example :
  enc_varint 515 = [xfd; x03; x02] /\ dec_varint [xfd; x03; x02; x77] = Ok (515, [x77])
  /\ dec_varint [xfd; xfc; x00] = Err CNonMinimalVarInt.
Proof. repeat split. Qed.

(** ** C15: pairs and proprietary keys *)

Theorem C15_pair_wire_format : forall p,
  wf_pair p -> forall b, pair_wire p b <-> b = ser_pair p.
Proof. intros p H b. split; [apply pair_wire_ser|intros ->; now apply ser_pair_spec]. Qed.
Print Assumptions C15_pair_wire_format.

Theorem C15_pair_roundtrip : forall p rest,
  blen (k_data (p_key p)) <= MAX_VEC_SIZE -> blen (p_value p) <= MAX_VALUE ->
  dec_pair (ser_pair p ++ rest) = Ok (p, rest).
Proof. intros p rest Hk Hv. now apply dec_pair_rt. Qed.
Print Assumptions C15_pair_roundtrip.

(** [MAX_VALUE], that is [MAX_VEC_SIZE] minus the length prefix, is the exact bound:
    longer values are written but not read back. *)
Theorem C15_pair_long_value_not_read : forall p rest,
  blen (k_data (p_key p)) <= MAX_VEC_SIZE -> MAX_VALUE < blen (p_value p) < 2 ^ 64 ->
  dec_pair (ser_pair p ++ rest) = Err (SConsensusEncoding CIo).
Proof. intros p rest Hk [H1 H2]. apply dec_pair_long; auto. unfold wf_value. lia. Qed.
Print Assumptions C15_pair_long_value_not_read.

Theorem C15_pair_roundtrip_refuted : exists p,
  blen (k_data (p_key p)) <= MAX_VEC_SIZE /\ is_ok (dec_pair (ser_pair p)) = false.
Proof.
  assert (B : exists v : bytes, blen v = 3999996).
  { exists (repeat x51 (N.to_nat 3999996)). unfold blen. rewrite repeat_length. apply N2Nat.id. }
  destruct B as [v B]. exists (Pair (Key x04 []) v). split; [discriminate|].
  rewrite <- (app_nil_r (ser_pair _)), C15_pair_long_value_not_read; cbn [p_key p_value k_data]; [reflexivity|discriminate|].
  rewrite B. split; reflexivity.
Qed.
Print Assumptions C15_pair_roundtrip_refuted.

Theorem C15_pair_prefix_free : forall p q a b,
  blen (k_data (p_key p)) + 1 < 2 ^ 64 -> blen (p_value p) < 2 ^ 64 ->
  blen (k_data (p_key q)) + 1 < 2 ^ 64 -> blen (p_value q) < 2 ^ 64 ->
  ser_pair p ++ a = ser_pair q ++ b -> p = q /\ a = b.
Proof. exact ser_pair_prefix_free. Qed.
Print Assumptions C15_pair_prefix_free.

Theorem C15_pair_decodes_only_pairs : forall bs p rest,
  dec_pair bs = Ok (p, rest) ->
  bs = ser_pair p ++ rest /\ blen (k_data (p_key p)) <= MAX_VEC_SIZE /\ blen (p_value p) <= MAX_VALUE.
Proof. intros bs p rest H. apply dec_pair_canon in H as [-> [H1 H2]]. auto. Qed.
Print Assumptions C15_pair_decodes_only_pairs.

Theorem C15_proprietary_roundtrip : forall k,
  blen (pk_key k) <= 1024 -> blen (enc_propkey k) <= MAX_VEC_SIZE ->
  propkey_try_from (propkey_to_key k) = Ok k.
Proof. intros k H1 H2. apply propkey_roundtrip. split; assumption. Qed.
Print Assumptions C15_proprietary_roundtrip.

Theorem C15_proprietary_wire_format : forall k,
  blen (pk_prefix k) < 2 ^ 64 ->
  k_type (propkey_to_key k) = xfc /\ propkey_wire k (k_data (propkey_to_key k)).
Proof. intros k H. split; [reflexivity|now apply enc_propkey_spec]. Qed.
Print Assumptions C15_proprietary_wire_format.

(** The bound of 1024 bytes is needed: a longer subkey is written but not read back. *)
Theorem C15_proprietary_long_key_refuted : exists k,
  blen (enc_propkey k) <= MAX_VEC_SIZE /\ is_ok (propkey_try_from (propkey_to_key k)) = false.
Proof.
  exists (PropKey [x01] x02 (repeat x03 1025)). split; [discriminate|vm_compute; reflexivity].
Qed.
Print Assumptions C15_proprietary_long_key_refuted.

Example C15_example :
  let k := PropKey [x61; x62] x07 [x01; x02; x03] in
  let p := Pair (propkey_to_key k) [x09] in
  wf_pair p /\ dec_pair (ser_pair p ++ [xaa]) = Ok (p, [xaa]) /\ propkey_try_from (p_key p) = Ok k.
Proof. repeat split; discriminate. Qed.

(** ** C43: field value codecs

    Each theorem has two parts: reading back what was written, and what is known
    about an accepted byte string [b] (for the canonical codecs: it is what the
    value serializes to, so nothing is left over or ignored). *)

Theorem C43_keysource : forall (X : Ext) (L : ExtLaws X),
  (forall v, length (ks_fp v) = 4%nat -> Forall (fun n => n < 2 ^ 32) (ks_path v) ->
     de_keysource (ser_keysource v) = Ok v) /\
  (forall b v, de_keysource b = Ok v -> b = ser_keysource v).
Proof. intros X L. split; [exact de_keysource_rt|apply keysource_canonical]. Qed.
Print Assumptions C43_keysource.

(** Sequences, u32 values and sighash types. *)
Theorem C43_u32 :
  (forall v, v < 2 ^ 32 -> de_u32 (ser_u32 v) = Ok v) /\
  (forall b v, de_u32 b = Ok v -> b = ser_u32 v).
Proof. split; [exact de_u32_rt|apply u32_canonical]. Qed.
Print Assumptions C43_u32.

Theorem C43_locktimes : forall (X : Ext) (L : ExtLaws X),
  (forall v, v < 500000000 -> de_height (ser_height v) = Ok v) /\
  (forall b v, de_height b = Ok v -> b = ser_height v /\ v < 500000000) /\
  (forall v, 500000000 <= v < 2 ^ 32 -> de_time (ser_time v) = Ok v) /\
  (forall b v, de_time b = Ok v -> b = ser_time v /\ 500000000 <= v).
Proof.
  intros X L. repeat apply conj.
  - apply height_codec.
  - intros b v H. split; [now apply height_canonical|].
    unfold de_height in H. binds H. destruct (x <? LOCK_TIME_THRESHOLD) eqn:E; [|discriminate]. inv H.
    unfold LOCK_TIME_THRESHOLD in E. lia.
  - apply time_codec.
  - intros b v H. split; [now apply time_canonical|].
    unfold de_time in H. binds H.
    destruct (LOCK_TIME_THRESHOLD <=? x) eqn:E; [|discriminate]. inj H. unfold LOCK_TIME_THRESHOLD in E. lia.
Qed.
Print Assumptions C43_locktimes.

Theorem C43_amount :
  (forall v, v < 2 ^ 64 -> de_amount (ser_amount v) = Ok v) /\
  (forall b v, de_amount b = Ok v -> b = ser_amount v).
Proof. split; [apply amount_codec|apply amount_canonical]. Qed.
Print Assumptions C43_amount.

Theorem C43_leafscript : forall (X : Ext) (L : ExtLaws X),
  (forall v, wf_leafver (snd v) -> de_leafscript (ser_leafscript v) = Ok v) /\
  (forall b v, de_leafscript b = Ok v -> b = ser_leafscript v).
Proof. intros X L. split; [apply leafscript_rt|apply leafscript_canonical]. Qed.
Print Assumptions C43_leafscript.

Theorem C43_xonly_leafhash : forall (X : Ext) (L : ExtLaws X),
  (forall v, wf_xleaf v -> de_xleaf (ser_xleaf v) = Ok v) /\
  (forall b v, de_xleaf b = Ok v -> b = ser_xleaf v).
Proof. intros X L. split; [apply (xleaf_codec 64); lia|apply xleaf_canonical]. Qed.
Print Assumptions C43_xonly_leafhash.

Theorem C43_taporigin : forall (X : Ext) (L : ExtLaws X),
  (forall l k, blen l < 2 ^ 64 -> Forall (wf_bytes_n 32) l -> length (ks_fp k) = 4%nat ->
     Forall (fun n => n < 2 ^ 32) (ks_path k) -> de_taporigin (ser_taporigin (l, k)) = Ok (l, k)) /\
  (forall b v, de_taporigin b = Ok v -> b = ser_taporigin v).
Proof. intros X L. split; [apply taporigin_rt|apply taporigin_canonical]. Qed.
Print Assumptions C43_taporigin.

Theorem C43_controlblock : forall (X : Ext) (L : ExtLaws X),
  (forall v, wf_controlblock v -> de_controlblock (ser_controlblock v) = Ok v) /\
  (forall b v, de_controlblock b = Ok v -> b = ser_controlblock v).
Proof. intros X L. split; [apply (controlblock_codec 4129); lia|apply controlblock_canonical]. Qed.
Print Assumptions C43_controlblock.

Theorem C43_pubkey : forall (X : Ext) (L : ExtLaws X),
  (forall v, wf_pubkey v -> de_pubkey (ser_pubkey v) = Ok v) /\
  (forall b v, de_pubkey b = Ok v -> b = ser_pubkey v).
Proof. intros X L. split; [apply (pubkey_codec 65); lia|apply pubkey_canonical]. Qed.
Print Assumptions C43_pubkey.

(** An accepted ECDSA signature is a DER string for the signature and its type byte. *)
Theorem C43_ecdsa_sig : forall (X : Ext) (L : ExtLaws X),
  (forall v, wf_esig v -> de_esig (ser_esig v) = Ok v) /\
  (forall b v, de_esig b = Ok v ->
     exists d, der_parse d = Some (es_der v) /\ b = d ++ [n2b (es_type v)]).
Proof. intros X L. split; [apply esig_codec|apply de_esig_accepts]. Qed.
Print Assumptions C43_ecdsa_sig.

(** A taproot signature with the default type is written as 64 bytes; the 65 byte
    form with an explicit zero type byte is accepted too. *)
Theorem C43_taproot_sig : forall (X : Ext) (L : ExtLaws X),
  (forall v, wf_tsig v -> de_tsig (ser_tsig v) = Ok v) /\
  (forall b v, de_tsig b = Ok v ->
     b = ser_tsig v \/ (ts_type v = 0 /\ b = ts_sig v ++ [x00])).
Proof. intros X L. split; [apply tsig_codec|apply de_tsig_accepts]. Qed.
Print Assumptions C43_taproot_sig.

Theorem C43_dleq :
  (forall v, length v = 64%nat -> de_dleq (ser_dleq v) = Ok v) /\
  (forall b v, de_dleq b = Ok v -> b = ser_dleq v /\ length b = 64%nat).
Proof.
  split; [apply dleq_codec|]. intros b v H. split; [now apply dleq_canonical|].
  unfold de_dleq, dleq_try_from in H. destruct (blen b =? 64) eqn:E; [|discriminate]. unfold blen in E. lia.
Qed.
Print Assumptions C43_dleq.

Theorem C43_transaction :
  (forall v, wf_tx v -> de_tx (ser_tx v) = Ok v) /\
  (forall b v, de_tx b = Ok v -> b = ser_tx v).
Proof. split; [apply (de_consensus_rt _ _ _ dec_tx_rt)|apply tx_canonical]. Qed.
Print Assumptions C43_transaction.

Theorem C43_txout :
  (forall v, wf_txout v -> de_txout (ser_txout v) = Ok v) /\
  (forall b v, de_txout b = Ok v -> b = ser_txout v).
Proof. split; [apply (de_consensus_rt _ _ _ dec_txout_rt)|apply txout_canonical]. Qed.
Print Assumptions C43_txout.

Theorem C43_witness :
  (forall v, wf_witness v -> de_witness (ser_witness v) = Ok v) /\
  (forall b v, de_witness b = Ok v -> b = ser_witness v).
Proof. split; [apply (de_consensus_rt _ _ _ dec_witness_rt)|apply witness_canonical]. Qed.
Print Assumptions C43_witness.

(** Leftover bytes are an error (or a different value), for every canonical codec. *)
Theorem C43_no_leftover : forall (A : Type) (ser : A -> bytes) (de : bytes -> res serr A),
  (forall b v, de b = Ok v -> b = ser v) ->
  forall v t, de (ser v ++ t) = Ok v -> t = [].
Proof. intros A ser de H. now apply canonical_leftover. Qed.
Print Assumptions C43_no_leftover.

Example C43_example : (* with the toy instance *)
  let ks := KeySource [x01; x02; x03; x04] [7; 2147483648] in
  @wf_taporigin ([zeros 32; repeat x01 32], ks) /\
  de_taporigin (ser_taporigin ([zeros 32; repeat x01 32], ks)) = Ok ([zeros 32; repeat x01 32], ks) /\
  @wf_esig toy (ESig [x30; x05] 129) /\
  wf_tx_v (Tx 2 0 [TxIn (repeat x05 32) 1 [x51] 4294967295 [[x01]]] [TxOut 1000 [x51]]).
Proof.
  assert (F : forall l : list bytes, forallb (fun b => Nat.eqb (length b) 32) l = true -> Forall (wf_bytes_n 32) l).
  { intros l H. apply Forall_forall. intros b Hb. rewrite forallb_forall in H. apply H in Hb.
    now apply Nat.eqb_eq in Hb. }
  cbv zeta. split; [|split; [|split]].
  - split; [now apply F|]. split; [reflexivity|]. split; [|vm_compute; discriminate].
    cbn [snd ks_path]. constructor; [reflexivity|]. constructor; [reflexivity|]. constructor.
  - vm_compute. reflexivity.
  - split; vm_compute; reflexivity.
  - split; [|vm_compute; discriminate].
    assert (V : wf_txin (TxIn (repeat x05 32) 1 [x51] 4294967295 [[x01]])).
    { split; [reflexivity|]. split; [reflexivity|]. split; [reflexivity|]. split; [reflexivity|].
      vm_compute. discriminate. }
    split; [reflexivity|]. split; [reflexivity|]. split; [reflexivity|].
    split; [constructor; [exact V|constructor]|]. split; [reflexivity|].
    constructor; [|constructor]. split; reflexivity.
Qed.

(** ** C54: taproot trees *)

(** A tree [t] built from a tree [sh] of scripts
    ([TapTree.node_of], the builder's [NodeInfo::combine]) comes back with the same
    root hash, which is what [TapTree]'s equality compares, and the same leaves
    (script, version, depth) up to the order of equal siblings. *)
Theorem C54_taptree_roundtrip : forall (X : Ext) (L : ExtLaws X) sh t,
  wf_shape sh -> node_of sh = Some t ->
  exists t', de_taptree (ser_taptree t) = Ok t' /\ ni_hash t' = ni_hash t /\
    Permutation (map (fun l => (length (tl_branch l), tl_ver l, tl_script l)) (ni_leaves t'))
                (map (fun l => (length (tl_branch l), tl_ver l, tl_script l)) (ni_leaves t)).
Proof.
  intros X L sh t Hs H. destruct (taptree_roundtrip_shape sh t Hs H) as (t' & H1 & H2 & _ & _ & H4).
  exists t'. auto.
Qed.
Print Assumptions C54_taptree_roundtrip.

(** Identical (all leaves, branches and their order) when no two siblings have equal hashes. *)
Theorem C54_taptree_roundtrip_exact : forall (X : Ext) (L : ExtLaws X) sh t,
  wf_shape sh -> no_tie sh -> node_of sh = Some t -> de_taptree (ser_taptree t) = Ok t.
Proof. intros X L. exact taptree_roundtrip_exact. Qed.
Print Assumptions C54_taptree_roundtrip_exact.

(** Trees obtained by deserialization are trees that can be built. *)
Theorem C54_deserialized_is_built : forall (X : Ext) (L : ExtLaws X) bs t,
  blen bs < 2 ^ 64 -> de_taptree bs = Ok t -> exists sh, wf_shape sh /\ node_of sh = Some t.
Proof. intros X L bs t Hb H. now apply de_taptree_shape in H. Qed.
Print Assumptions C54_deserialized_is_built.

Example C54_example :
  let sh := TB (TL [x51] 192) (TB (TL [x52] 192) (TL [x53] 192)) in
  wf_shape sh /\ @no_tie toy sh /\
  match @node_of toy sh with
  | Some t => @de_taptree toy (ser_taptree t) = Ok t
  | None => False
  end.
Proof.
  cbv zeta.
  assert (V : forall s, blen s < U64 -> wf_shape (TL s 192)) by (intros s H; split; [exact H|split; reflexivity]).
  split; [|split].
  - split; [now apply V|]. split; now apply V.
  - assert (N1 : bytes_eqb (@shash toy (TL [x52] 192)) (@shash toy (TL [x53] 192)) = false)
      by (vm_compute; reflexivity).
    assert (N2 : bytes_eqb (@shash toy (TL [x51] 192)) (@shash toy (TB (TL [x52] 192) (TL [x53] 192))) = false)
      by (vm_compute; reflexivity).
    apply bytes_eqb_neq in N1, N2. cbn [no_tie]. exact (conj I (conj (conj I (conj I N1)) N2)).
  - vm_compute. reflexivity.
Qed.

(** C139: the error for a value says what is wrong with the value. *)
From Coq Require Import Strings.String.
From Verif Require Import Base OMap Consensus ConsensusFacts Ext Raw TapTree Serialize SerializeFacts SpecCodec SpecTx TxWireFacts
  SpecTapTree V0Error MapCodec SighashType V2Global ErrorText SpecValueErrors ValueErrorFacts ExtInstance.
Local Open Scope N_scope.

#[local] Existing Instance toy | 100.

(** Numbers have a fixed number of bytes; heights and times are on their side of the threshold. *)
Theorem C139_numbers : forall bs e,
  (de_u32 bs = Err e <-> int_fails 4 bs e)
  /\ (de_amount bs = Err e <-> int_fails 8 bs e)
  /\ (de_height bs = Err e <-> int_fails 4 bs e \/ (exists n, int_wire 4 n bs /\ 500000000 <= n /\ e = SLockTime))
  /\ (de_time bs = Err e <-> int_fails 4 bs e \/ (exists n, int_wire 4 n bs /\ n < 500000000 /\ e = SLockTime))
  /\ (de_version bs = Err e <->
        int_fails 4 bs e \/ (exists n, int_wire 4 n bs /\ n <> 0 /\ n <> 2 /\ e = SUnsupportedVersion n)).
Proof.
  intros bs e. split; [exact (int_err 4 bs e)|]. split; [exact (int_err 8 bs e)|].
  unfold de_height, de_time, de_version, version_try_from, LOCK_TIME_THRESHOLD.
  assert (G : forall f : N -> res serr N, bind (de_consensus dec_u32 bs) f = Err e <->
    int_fails 4 bs e \/ (exists n, int_wire 4 n bs /\ f n = Err e)).
  { intros f. rewrite bind_err'. rewrite (int_err 4 bs e). split; (intros [H|(n & H & H1)]; [auto|right; exists n; split; auto; now apply (int_ok 4)]). }
  rewrite !G. repeat split; (intros [H|(n & H & H1)]; [left; exact H|right; exists n; split; [exact H|]]).
  - destruct (n <? 500000000) eqn:E; [discriminate|]. split; [lia|congruence].
  - destruct H1 as [H1 ->]. destruct (n <? 500000000) eqn:E; [lia|reflexivity].
  - destruct (500000000 <=? n) eqn:E; [discriminate|]. split; [lia|congruence].
  - destruct H1 as [H1 ->]. destruct (500000000 <=? n) eqn:E; [lia|reflexivity].
  - destruct (n =? 0) eqn:E; [discriminate|]. destruct (n =? 2) eqn:E'; [discriminate|]. split; [lia|]. split; [lia|congruence].
  - destruct H1 as (H0 & H2 & ->). destruct (n =? 0) eqn:E; [lia|]. destruct (n =? 2) eqn:E'; [lia|reflexivity].
Qed.
Print Assumptions C139_numbers.
Example C139_numbers_example :
  de_u32 [x01; x00; x00] = Err (SConsensusEncoding CIo) /\ de_u32 [x01; x00; x00; x00; x00] = Err (SConsensusEncoding CParseFailed)
  /\ de_height [x00; x65; xcd; x1d] = Err SLockTime /\ de_time [xff; x64; xcd; x1d] = Err SLockTime
  /\ de_version [x01; x00; x00; x00] = Err (SUnsupportedVersion 1).
Proof. vm_compute. repeat split; reflexivity. Qed.

(** Keys and hashes. *)
Theorem C139_keys : forall (X : Ext) bs e,
  (de_pubkey bs = Err e <-> pubkey_fails bs e)
  /\ (de_secp bs = Err e <-> secp_fails bs e)
  /\ (de_xonly bs = Err e <-> xonly_fails bs e)
  /\ (forall n, de_hash n bs = Err e <-> blen bs <> n /\ e = SInvalidHash)
  /\ de_script bs <> Err e.
Proof.
  intros X bs e. split; [apply pubkey_err|]. split; [apply secp_err|]. split; [apply xonly_err|]. split; [|discriminate].
  intros n. apply hash_err.
Qed.
Print Assumptions C139_keys.
Example C139_keys_example :
  de_pubkey (zeros 65) = Err SInvalidPublicKey /\ de_secp (zeros 3) = Err SInvalidSecp256k1PublicKey
  /\ de_xonly (zeros 33) = Err SInvalidXOnlyPublicKey /\ de_hash 20 (zeros 32) = Err SInvalidHash.
Proof. vm_compute. repeat split; reflexivity. Qed.

(** Signatures: the sighash type is looked at before an ECDSA signature. *)
Theorem C139_signatures : forall (X : Ext) bs e,
  (de_esig bs = Err e <-> esig_fails bs e) /\ (de_tsig bs = Err e <-> tsig_fails bs e).
Proof. intros X bs e. split; [apply esig_err|apply tsig_err]. Qed.
Print Assumptions C139_signatures.
Example C139_signatures_example :
  de_esig [] = Err SInvalidEcdsaSignature /\ de_esig [x30; x00] = Err (SNonStandardSighashType 0)
  /\ de_tsig (zeros 63) = Err SInvalidTaprootSignature /\ de_tsig (zeros 64 ++ [x04]) = Err (SNonStandardSighashType 4).
Proof. vm_compute. repeat split; reflexivity. Qed.

(** Key sources, alone and after leaf hashes. *)
Theorem C139_sources : forall bs e,
  (de_keysource bs = Err e <-> source_fails bs e) /\ (de_taporigin bs = Err e <-> origin_fails bs e).
Proof. intros bs e. split; [apply source_err|apply origin_err]. Qed.
Print Assumptions C139_sources.
Example C139_sources_example :
  de_keysource (zeros 3) = Err SNotEnoughData /\ de_keysource (zeros 9) = Err (SConsensusEncoding CIo)
  /\ de_taporigin (x01 :: zeros 32) = Err SNotEnoughData /\ de_taporigin (x02 :: zeros 40) = Err (SConsensusEncoding CIo)
  /\ de_taporigin [xfd; xfc; x00] = Err (SConsensusEncoding CNonMinimalVarInt).
Proof. vm_compute. repeat split; reflexivity. Qed.

(** Scripts of leaves, control blocks and the keys of script signatures. *)
Theorem C139_taproot : forall (X : Ext) bs e,
  (de_leafscript bs = Err e <-> leafscript_fails bs e)
  /\ (de_controlblock bs = Err e <-> controlblock_fails bs e)
  /\ (de_xleaf bs = Err e <-> xleaf_fails bs e).
Proof. intros X bs e. split; [apply leafscript_err|]. split; [apply controlblock_err|apply xleaf_err]. Qed.
Print Assumptions C139_taproot.
Example C139_taproot_example :
  de_leafscript [] = Err SNotEnoughData /\ de_leafscript [x51; x50] = Err SInvalidLeafVersion
  /\ de_leafscript [x51; xc1] = Err SInvalidLeafVersion
  /\ de_controlblock (xc0 :: zeros 33) = Err SInvalidControlBlock
  /\ de_xleaf (zeros 31) = Err SNotEnoughData.
Proof. vm_compute. repeat split; reflexivity. Qed.

(** The error for a tree points to the place where the leaves stop to be those of a tree. *)
Theorem C139_taptree : forall (X : Ext) bs e, de_taptree bs = Err e -> taptree_fails bs e.
Proof. intros X. exact taptree_err. Qed.
Print Assumptions C139_taptree.
Example C139_taptree_example :
  de_taptree [] = Err STapTree /\ de_taptree [x01; xc0; x01; x51] = Err STapTree /\ de_taptree [x01; xc0; x01; x51; x01] = Err STaproot
  /\ de_taptree [x00; xc1; x01; x51] = Err SInvalidLeafVersion /\ de_taptree [x00; xc0; x02; x51] = Err (SConsensusEncoding CIo)
  /\ de_taptree [x02; xc0; x01; x51; x01; xc0; x01; x51] = Err STaproot
  /\ de_taptree [x00; xc0; x01; x51; x00; xc0; x01; x51] = Err STaproot.
Proof. vm_compute. repeat split; reflexivity. Qed.

(** Outputs. *)
Theorem C139_txout : forall bs e, de_txout bs = Err e <-> txout_fails bs e.
Proof. exact txout_err. Qed.
Print Assumptions C139_txout.
Example C139_txout_example :
  de_txout (repeat x00 8 ++ [x01]) = Err (SConsensusEncoding CIo) /\ de_txout (repeat x00 8 ++ [xfd; x01; x00]) = Err (SConsensusEncoding CNonMinimalVarInt)
  /\ de_txout (repeat x00 8 ++ [x01; x51; x51]) = Err (SConsensusEncoding CParseFailed)
  /\ de_txout (repeat x00 8 ++ [x01; x51]) = Ok (TxOut 0 [x51]).
Proof. vm_compute. repeat split; reflexivity. Qed.

(** What is missing at the end of a value is reported as missing, what is too much as too much. *)
Theorem C139_truncated : forall p s, s <> [] ->
  (forall t, tx_wire t (p ++ s) -> Forall (fun i => witness_fits (ti_witness i)) (tx_input t) ->
     de_tx p = Err (SConsensusEncoding CIo))
  /\ (forall w, witness_wire w (p ++ s) -> witness_fits w -> de_witness p = Err (SConsensusEncoding CIo))
  /\ (forall o, txout_wire o (p ++ s) -> de_txout p = Err (SConsensusEncoding CIo)).
Proof.
  intros p s Hs. split; [|split].
  - intros t H F. assert (E : dec_tx (p ++ s) = Ok (t, [])).
    { apply dec_tx_iff. split; [exact F|]. exists (p ++ s). split; [exact H|now rewrite app_nil_r]. }
    apply (truncated dec_tx (p ++ s) p s t cuts_tx); [|reflexivity|exact Hs]. unfold de_consensus, c_deserialize. now rewrite E.
  - intros w H F. apply witness_wire_iff in H; [|exact F]. apply fits_iff in F.
    apply (truncated dec_witness (p ++ s) p s w cuts_witness); [|reflexivity|exact Hs].
    rewrite H. unfold de_consensus. now rewrite (c_deserialize_rt _ _ _ _ dec_witness_rt F).
  - intros o H. apply txout_wire_iff in H as [W H].
    apply (truncated dec_txout (p ++ s) p s o cuts_txout); [|reflexivity|exact Hs].
    rewrite H. unfold de_consensus. now rewrite (c_deserialize_rt _ _ _ _ dec_txout_rt W).
Qed.
Print Assumptions C139_truncated.
Theorem C139_trailing : forall b s, s <> [] ->
  (forall t, tx_wire t b -> Forall (fun i => witness_fits (ti_witness i)) (tx_input t) ->
     de_tx (b ++ s) = Err (SConsensusEncoding CParseFailed))
  /\ (forall w, witness_wire w b -> witness_fits w -> de_witness (b ++ s) = Err (SConsensusEncoding CParseFailed))
  /\ (forall o, txout_wire o b -> de_txout (b ++ s) = Err (SConsensusEncoding CParseFailed)).
Proof.
  intros b s Hs. split; [|split].
  - intros t H F. apply tx_wire_iff in H as [W ->]; [|exact F].
    apply (padded _ _ dec_tx _ s t dec_tx_rt dec_tx_canon); [|exact Hs]. unfold de_consensus. now rewrite (c_deserialize_rt _ _ _ _ dec_tx_rt W).
  - intros w H F. apply witness_wire_iff in H as ->; [|exact F]. apply fits_iff in F.
    apply (padded _ _ dec_witness _ s w dec_witness_rt dec_witness_canon); [|exact Hs]. unfold de_consensus.
    now rewrite (c_deserialize_rt _ _ _ _ dec_witness_rt F).
  - intros o H. apply txout_wire_iff in H as [W ->].
    apply (padded _ _ dec_txout _ s o dec_txout_rt dec_txout_canon); [|exact Hs]. unfold de_consensus.
    now rewrite (c_deserialize_rt _ _ _ _ dec_txout_rt W).
Qed.
Print Assumptions C139_trailing.
Example C139_truncated_example :
  witness_wire [[x51]] ([x01; x01] ++ [x51]) /\ witness_fits [[x51]]
  /\ de_witness [x01; x01] = Err (SConsensusEncoding CIo)
  /\ de_witness [x01; x01; x51; x00] = Err (SConsensusEncoding CParseFailed)
  /\ txout_wire (TxOut 1 [x51]) [x01; x00; x00; x00; x00; x00; x00; x00; x01; x51]
  /\ de_txout [x01; x00; x00; x00; x00; x00; x00; x00; x01] = Err (SConsensusEncoding CIo).
Proof.
  assert (F : witness_fits [[x51]]) by (apply fits_iff; vm_compute; discriminate).
  split; [apply witness_wire_iff; [exact F|reflexivity]|]. split; [exact F|]. split; [reflexivity|]. split; [reflexivity|].
  split; [|reflexivity]. apply txout_wire_iff. split; [split; vm_compute; reflexivity|reflexivity].
Qed.

(** Version 0 reports what is wrong with a value in the words of version 2, except that too few
    bytes are an I/O error. *)
Theorem C139_v0 : forall (C : Cfg) txid_text xpub_text s,
  (err0_of_serr s = E0Io <->
     s = SNotEnoughData \/ s = SLockTime \/ (exists n, s = SUnsupportedVersion n)
     \/ (exists a b, s = SInvalidScanKey a b \/ s = SInvalidEcdhShare a b \/ s = SInvalidDleqProof a b))
  /\ (err0_of_serr s <> E0Io -> err0_text txid_text xpub_text (err0_of_serr s) = serr_text s)
  /\ (forall c, s = SConsensusEncoding c -> err0_of_serr s = E0ConsensusEncoding c).
Proof.
  intros C ft fx s. split; [|split].
  - split.
    + destruct s; cbn; intros H; try discriminate H; eauto 12.
    + intros [->|[->|[(n & ->)|(a & b & [->|[->| ->]])]]]; reflexivity.
  - destruct s; cbn [err0_of_serr]; intros H; try reflexivity; now destruct H.
  - intros c ->. reflexivity.
Qed.
Print Assumptions C139_v0.
Example C139_v0_example : err0_text (fun _ => []) (fun _ => []) (C := cfg_of false false) (err0_of_serr (SNonStandardSighashType 4))
  = str "non-standard sighash type: 4".
Proof. vm_compute. reflexivity. Qed.

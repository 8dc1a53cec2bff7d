(** Model of src/serialize.rs (value codecs), src/version.rs, src/v2/dleq.rs and the
    external key types stored in PSBT maps. *)
From Verif Require Import Base Consensus Ext Raw TapTree.
Local Open Scope N_scope.

Section Serialize.
Context `{X : Ext}.

(** ** Consensus encoded values *)

(** src/macros.rs:30-39 [v2_impl_psbt_deserialize]. *)
Definition de_consensus {A} (dec : reader cerr A) (bs : bytes) : res serr A :=
  map_err SConsensusEncoding (c_deserialize dec bs).

(** src/serialize.rs:47 [absolute::LockTime], a u32. *)
Definition ser_locktime (n : N) : bytes := enc_u32 n.
Definition de_locktime : bytes -> res serr N := de_consensus dec_u32.
(** src/serialize.rs:48 [Amount], a u64. *)
Definition ser_amount (n : N) : bytes := enc_u64 n.
Definition de_amount : bytes -> res serr N := de_consensus dec_u64.
(** src/serialize.rs:49 [Transaction]. *)
Definition ser_tx (t : tx) : bytes := enc_tx t.
Definition de_tx : bytes -> res serr tx := de_consensus dec_tx.
(** src/serialize.rs:50 [transaction::Version], an i32 (kept as its u32 bit pattern). *)
Definition ser_txversion (n : N) : bytes := enc_u32 n.
Definition de_txversion : bytes -> res serr N := de_consensus dec_u32.
(** src/serialize.rs:51 [TxOut]. *)
Definition ser_txout (o : txout) : bytes := enc_txout o.
Definition de_txout : bytes -> res serr txout := de_consensus dec_txout.
(** src/serialize.rs:52 [Witness]. *)
Definition ser_witness (w : witness) : bytes := enc_witness w.
Definition de_witness : bytes -> res serr witness := de_consensus dec_witness.
(** src/serialize.rs:53 [VarInt]. *)
Definition ser_varint (n : N) : bytes := enc_varint n.
Definition de_varint : bytes -> res serr N := de_consensus dec_varint.

(** src/serialize.rs:54-60, src/macros.rs:107-130: hash types of [n] bytes. *)
Definition ser_hash (h : bytes) : bytes := h.
Definition de_hash (n : N) (bs : bytes) : res serr bytes :=
  if blen bs =? n then Ok bs else Err SInvalidHash.

(** src/serialize.rs:65-71 [ScriptBuf]. *)
Definition ser_script (s : bytes) : bytes := s.
Definition de_script (bs : bytes) : res serr bytes := Ok bs.

(** src/serialize.rs:208-214 [Vec<u8>]. *)
Definition ser_vec (s : bytes) : bytes := s.
Definition de_vec (bs : bytes) : res serr bytes := Ok bs.

(** ** Public keys *)

(** [bitcoin::PublicKey]: the flag and the point in compressed form. *)
Record pubkey := PubKey { pub_compressed : bool; pub_inner : bytes }.

(** Sort key of the derived [Ord] ([compressed] first, then the key). *)
Definition sk_pubkey (k : pubkey) : list N :=
  (if pub_compressed k then 1 else 0) :: bkey (pub_inner k).

(** src/serialize.rs:73-79 [Serialize for PublicKey]. *)
Definition ser_pubkey (k : pubkey) : bytes :=
  if pub_compressed k then pub_inner k else secp_uncompress (pub_inner k).

(** src/serialize.rs:81-85; [bitcoin::PublicKey::from_slice] wants 33 bytes, or 65
    bytes starting with 04. *)
Definition de_pubkey (bs : bytes) : res serr pubkey :=
  if blen bs =? 33 then
    match secp_parse bs with Some c => Ok (PubKey true c) | None => Err SInvalidPublicKey end
  else if (blen bs =? 65) && beq (hd x00 bs) x04 then
    match secp_parse bs with Some c => Ok (PubKey false c) | None => Err SInvalidPublicKey end
  else Err SInvalidPublicKey.

(** src/serialize.rs:87-95 [secp256k1::PublicKey]: always serialized compressed. *)
Definition ser_secp (k : bytes) : bytes := k.
Definition de_secp (bs : bytes) : res serr bytes :=
  ok_or (secp_parse bs) SInvalidSecp256k1PublicKey.

(** src/serialize.rs:228-236 [XOnlyPublicKey]: 32 bytes on the curve. *)
Definition ser_xonly (k : bytes) : bytes := k.
Definition de_xonly (bs : bytes) : res serr bytes :=
  if (blen bs =? 32) && xonly_ok bs then Ok bs else Err SInvalidXOnlyPublicKey.

(** ** Signatures *)

(** [EcdsaSighashType::from_standard] succeeds. *)
Definition ecdsa_sighash_std (n : N) : bool :=
  (n =? 1) || (n =? 2) || (n =? 3) || (n =? 129) || (n =? 130) || (n =? 131).
(** [TapSighashType::from_consensus_u8] succeeds. *)
Definition tap_sighash_std (n : N) : bool := (n =? 0) || ecdsa_sighash_std n.

(** [ecdsa::Signature]: signature (as its DER serialization) and sighash type. *)
Record esig := ESig { es_der : bytes; es_type : N }.

(** src/serialize.rs:97-99, [ecdsa::Signature::to_vec]. *)
Definition ser_esig (s : esig) : bytes := es_der s ++ [n2b (es_type s)].

(** src/serialize.rs:101-124, [ecdsa::Signature::from_slice]. *)
Definition de_esig (bs : bytes) : res serr esig :=
  match bs with
  | [] => Err SInvalidEcdsaSignature
  | _ =>
      let ty := b2n (last bs x00) in
      if negb (ecdsa_sighash_std ty) then Err (SNonStandardSighashType ty)
      else
        match der_parse (removelast bs) with
        | Some d => Ok (ESig d ty)
        | None => Err SInvalidEcdsaSignature
        end
  end.

(** [taproot::Signature]: 64 byte signature and sighash type. *)
Record tsig := TSig { ts_sig : bytes; ts_type : N }.

(** src/serialize.rs:238-240, [taproot::Signature::to_vec]. *)
Definition ser_tsig (s : tsig) : bytes :=
  if ts_type s =? 0 then ts_sig s else ts_sig s ++ [n2b (ts_type s)].

(** src/serialize.rs:242-253, [taproot::Signature::from_slice]. *)
Definition de_tsig (bs : bytes) : res serr tsig :=
  if blen bs =? 64 then Ok (TSig bs 0)
  else if blen bs =? 65 then
    let ty := b2n (last bs x00) in
    if tap_sighash_std ty then Ok (TSig (removelast bs) ty)
    else Err (SNonStandardSighashType ty)
  else Err SInvalidTaprootSignature.

(** ** Key sources *)

(** [bip32::KeySource]: fingerprint (4 bytes) and derivation path (u32 child numbers). *)
Record keysource := KeySource { ks_fp : bytes; ks_path : list N }.

(** src/serialize.rs:126-138. *)
Definition ser_keysource (k : keysource) : bytes := ks_fp k ++ enc_all enc_u32 (ks_path k).

(** src/serialize.rs:149-155, the loop over the remaining bytes. *)
Fixpoint de_path (fuel : nat) (bs : bytes) : res serr (list N) :=
  match bs with
  | [] => Ok []
  | _ =>
      match fuel with
      | O => Err SNotEnoughData
      | S f =>
          '(n, r) <- map_err SConsensusEncoding (dec_u32 bs) ;;
          l <- de_path f r ;;
          Ok (n :: l)
      end
  end.

(** src/serialize.rs:140-159. *)
Definition de_keysource (bs : bytes) : res serr keysource :=
  if blen bs <? 4 then Err SNotEnoughData
  else
    p <- de_path (length bs) (skipn 4 bs) ;;
    Ok (KeySource (firstn 4 bs) p).

(** ** Integers with a meaning *)

(** src/serialize.rs:161-170 [u32], 172-181 [Sequence], 216-225 [PsbtSighashType]. *)
Definition ser_u32 (n : N) : bytes := enc_u32 n.
Definition de_u32 : bytes -> res serr N := de_consensus dec_u32.

(** [LOCK_TIME_THRESHOLD]: heights are below it, times are not. *)
Definition LOCK_TIME_THRESHOLD : N := 500000000.

(** src/serialize.rs:183-193 [absolute::Height]. *)
Definition ser_height (n : N) : bytes := enc_u32 n.
Definition de_height (bs : bytes) : res serr N :=
  n <- de_consensus dec_u32 bs ;;
  if n <? LOCK_TIME_THRESHOLD then Ok n else Err SLockTime.

(** src/serialize.rs:195-205 [absolute::Time]. *)
Definition ser_time (n : N) : bytes := enc_u32 n.
Definition de_time (bs : bytes) : res serr N :=
  n <- de_consensus dec_u32 bs ;;
  if LOCK_TIME_THRESHOLD <=? n then Ok n else Err SLockTime.

(** src/version.rs:36-58: [Version::try_from], [Deserialize for Version]. *)
Definition version_try_from (n : N) : res serr N :=
  if n =? 0 then Ok 0 else if n =? 2 then Ok 2 else Err (SUnsupportedVersion n).
Definition ser_version (n : N) : bytes := enc_u32 n.
Definition de_version (bs : bytes) : res serr N :=
  n <- de_consensus dec_u32 bs ;;
  version_try_from n.

(** ** Taproot *)

(** Sort key of a byte string that is followed by more components (the terminator
    makes a proper prefix smaller, as the derived [Ord] of tuples and structs does). *)
Definition sk_part (b : bytes) : list N := map (fun x => b2n x + 1) b ++ [0].

(** src/serialize.rs:255-274 [(XOnlyPublicKey, TapLeafHash)]. *)
Definition xleaf := (bytes * bytes)%type.
Definition sk_xleaf (p : xleaf) : list N := sk_part (fst p) ++ bkey (snd p).
Definition ser_xleaf (p : xleaf) : bytes := fst p ++ snd p.
Definition de_xleaf (bs : bytes) : res serr xleaf :=
  if blen bs <? 32 then Err SNotEnoughData
  else
    a <- de_xonly (firstn 32 bs) ;;
    b <- de_hash 32 (skipn 32 bs) ;;
    Ok (a, b).

(** [taproot::ControlBlock]; the merkle branch as its concatenated 32 byte hashes. *)
Record controlblock := ControlBlock {
  cb_ver : N; cb_parity : bool; cb_internal : bytes; cb_branch : bytes
}.

(** Sort key of the derived [Ord]: leaf version (TapScript before future versions),
    parity, internal key, branch. *)
Definition sk_controlblock (c : controlblock) : list N :=
  (if cb_ver c =? 192 then [0; 0] else [1; cb_ver c])
  ++ (if cb_parity c then 1 else 0) :: sk_part (cb_internal c) ++ bkey (cb_branch c).

(** src/serialize.rs:276-278, [ControlBlock::serialize]. *)
Definition ser_controlblock (c : controlblock) : bytes :=
  n2b (cb_ver c + (if cb_parity c then 1 else 0)) :: cb_internal c ++ cb_branch c.

(** src/serialize.rs:280-284, [ControlBlock::decode]. *)
Definition de_controlblock (bs : bytes) : res serr controlblock :=
  match bs with
  | [] => Err SInvalidControlBlock
  | b :: r =>
      if (blen bs <? 33) || negb ((blen bs - 33) mod 32 =? 0) then Err SInvalidControlBlock
      else
        let parity := b2n b mod 2 =? 1 in
        let ver := b2n b - b2n b mod 2 in
        if negb (leaf_version_ok ver) then Err SInvalidControlBlock
        else if negb (xonly_ok (firstn 32 r)) then Err SInvalidControlBlock
        else if 128 * 32 <? blen bs - 33 then Err SInvalidControlBlock
        else Ok (ControlBlock ver parity (firstn 32 r) (skipn 32 r))
  end.

(** src/serialize.rs:287-307 [(ScriptBuf, LeafVersion)]. *)
Definition leafscript := (bytes * N)%type.
Definition ser_leafscript (p : leafscript) : bytes := fst p ++ [n2b (snd p)].
Definition de_leafscript (bs : bytes) : res serr leafscript :=
  match bs with
  | [] => Err SNotEnoughData
  | _ =>
      let v := b2n (last bs x00) in
      if leaf_version_ok v then Ok (removelast bs, v) else Err SInvalidLeafVersion
  end.

(** src/serialize.rs:309-325 [(Vec<TapLeafHash>, KeySource)]. *)
Definition taporigin := (list bytes * keysource)%type.
Definition ser_taporigin (p : taporigin) : bytes :=
  enc_vec (fun h => h) (fst p) ++ ser_keysource (snd p).
Definition de_taporigin (bs : bytes) : res serr taporigin :=
  '(l, r) <- map_err SConsensusEncoding (dec_vec (c_take 32) bs) ;;
  k <- de_keysource r ;;
  Ok (l, k).

(** ** Extended public keys (bip32, src/v2/map/global.rs:262-298) *)

Record xpub := Xpub {
  xp_main : bool;            (* network kind *)
  xp_depth : byte;
  xp_fp : bytes;             (* parent fingerprint, 4 bytes *)
  xp_child : bytes;          (* child number, big endian, 4 bytes *)
  xp_cc : bytes;             (* chain code, 32 bytes *)
  xp_pk : bytes              (* public key, 33 bytes *)
}.

(** Sort key of the derived [Ord]: network, depth, fingerprint, child number, key, chain code. *)
Definition sk_xpub (x : xpub) : list N :=
  (if xp_main x then 0 else 1) :: b2n (xp_depth x) :: sk_part (xp_fp x) ++ sk_part (xp_child x)
  ++ sk_part (xp_pk x) ++ bkey (xp_cc x).

Definition xpub_magic (main : bool) : bytes :=
  if main then [x04; x88; xb2; x1e] else [x04; x35; x87; xcf].

(** [Xpub::encode], src/v2/map/global.rs:497-507. *)
Definition ser_xpub (x : xpub) : bytes :=
  xpub_magic (xp_main x) ++ xp_depth x :: xp_fp x ++ xp_child x ++ xp_cc x ++ xp_pk x.

(** [Xpub::decode], src/v2/map/global.rs:264. *)
Definition de_xpub (bs : bytes) : option xpub :=
  if blen bs =? 78 then
    let magic := firstn 4 bs in
    let rest := skipn 4 bs in
    let mk main :=
      match rest with
      | [] => None
      | d :: r =>
          let pk := skipn 40 r in
          match secp_parse pk with
          | Some _ => Some (Xpub main d (firstn 4 r) (firstn 4 (skipn 4 r)) (firstn 32 (skipn 8 r)) pk)
          | None => None
          end
      end in
    if bytes_eqb magic (xpub_magic true) then mk true
    else if bytes_eqb magic (xpub_magic false) then mk false
    else None
  else None.

(** ** Silent payments *)

(** [CompressedPublicKey::from_slice] / [to_bytes] (src/macros.rs:140-143). *)
Definition de_cpk (bs : bytes) : option bytes := secp_parse bs.

(** src/v2/dleq.rs:95-103 [DleqProof::try_from]: exactly 64 bytes. *)
Definition dleq_try_from (bs : bytes) : option bytes :=
  if blen bs =? 64 then Some bs else None.
(** src/v2/dleq.rs:111-124 [Serialize] / [Deserialize for DleqProof]. *)
Definition ser_dleq (p : bytes) : bytes := p.
Definition de_dleq (bs : bytes) : res serr bytes :=
  ok_or (dleq_try_from bs) (SInvalidDleqProof (blen bs) 64).

(** ** Values of these types *)

Definition wf_bytes_n (n : nat) (b : bytes) : Prop := length b = n.
Definition wf_height (n : N) : Prop := n < LOCK_TIME_THRESHOLD.
Definition wf_time (n : N) : Prop := LOCK_TIME_THRESHOLD <= n < U32.
Definition wf_version (n : N) : Prop := n = 0 \/ n = 2.
(** A point: its compressed form parses to itself. *)
Definition wf_secp (k : bytes) : Prop := secp_parse k = Some k.
Definition wf_pubkey (k : pubkey) : Prop := wf_secp (pub_inner k).
Definition wf_xonly (k : bytes) : Prop := length k = 32%nat /\ xonly_ok k = true.
Definition wf_esig (s : esig) : Prop :=
  der_parse (es_der s) = Some (es_der s) /\ ecdsa_sighash_std (es_type s) = true.
Definition wf_tsig (s : tsig) : Prop :=
  length (ts_sig s) = 64%nat /\ tap_sighash_std (ts_type s) = true.
Definition wf_keysource (k : keysource) : Prop :=
  length (ks_fp k) = 4%nat /\ Forall wf_u32 (ks_path k) /\ blen (ser_keysource k) <= MAX_VALUE.
Definition wf_xleaf (p : xleaf) : Prop := wf_xonly (fst p) /\ length (snd p) = 32%nat.
Definition wf_leafver (v : N) : Prop := v < 256 /\ leaf_version_ok v = true.
Definition wf_controlblock (c : controlblock) : Prop :=
  wf_leafver (cb_ver c) /\ wf_xonly (cb_internal c)
  /\ blen (cb_branch c) mod 32 = 0 /\ blen (cb_branch c) <= 128 * 32.
Definition wf_leafscript (p : leafscript) : Prop :=
  blen (fst p) + 1 <= MAX_VALUE /\ wf_leafver (snd p).
Definition wf_taporigin (p : taporigin) : Prop :=
  Forall (wf_bytes_n 32) (fst p) /\ length (ks_fp (snd p)) = 4%nat
  /\ Forall wf_u32 (ks_path (snd p)) /\ blen (ser_taporigin p) <= MAX_VALUE.
Definition wf_xpub (x : xpub) : Prop :=
  length (xp_fp x) = 4%nat /\ length (xp_child x) = 4%nat /\ length (xp_cc x) = 32%nat
  /\ wf_secp (xp_pk x).
Definition wf_dleq (p : bytes) : Prop := length p = 64%nat.
(** Values of the consensus types whose encodings a pair can carry. *)
Definition wf_tx_v (t : tx) : Prop := wf_tx t /\ blen (enc_tx t) <= MAX_VALUE.
Definition wf_txout_v (o : txout) : Prop := wf_txout o /\ blen (enc_txout o) <= MAX_VALUE.
Definition wf_witness_v (w : witness) : Prop := wf_witness w /\ blen (enc_witness w) <= MAX_VALUE.

End Serialize.

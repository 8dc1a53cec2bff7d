(** Signature digests, ECDSA and public keys computed for real, to evaluate the signing test
    vectors of the repository in the model (VectorsSign.v).  The theorems quantify over all such
    functions ([SignExt], [SchnorrExt]); no law is proved of these.  Taproot is not needed for the
    vectors and left out. *)
From Verif Require Import Base Ext RealExt Consensus Serialize V2Sign V0Sign.
Local Open Scope N_scope.

(** ** Points, for [secp256k1::PublicKey::from_secret_key], reached from src/v2/mod.rs:807 *)

(** Difference in the field. *)
Definition fsub (x y : N) : N := fmod (x + (P256 - y)).
(** Extended Euclidean algorithm: the inverse of [r1] modulo [m], where
    [t0 * a = r0] and [t1 * a = r1] modulo [m]. *)
Fixpoint euclid (fuel : nat) (m r0 r1 t0 t1 : N) : N :=
  match fuel with
  | O => 0
  | S f => if r1 =? 0 then t0
           else let q := r0 / r1 in
                euclid f m r1 (r0 - q * r1) t1 ((t0 + (m - (q * t1) mod m)) mod m)
  end.
Definition inv_mod (m a : N) : N := euclid 600 m m (a mod m) 0 1.
(** A point in Jacobian coordinates, z = 0 for the point at infinity (as in libsecp256k1). *)
Record jac := Jac { jx : N; jy : N; jz : N }.
Definition jdouble (p : jac) : jac :=
  let s := fmul (fmul 4 (jx p)) (fmul (jy p) (jy p)) in
  let m := fmul 3 (fmul (jx p) (jx p)) in
  let x := fsub (fmul m m) (fmul 2 s) in
  let y2 := fmul (jy p) (jy p) in
  Jac x (fsub (fmul m (fsub s x)) (fmul 8 (fmul y2 y2))) (fmul 2 (fmul (jy p) (jz p))).
(** Sum with the affine point [(x, y)]; equal points do not occur in [jmul]. *)
Definition jadd (p : jac) (x y : N) : jac :=
  if jz p =? 0 then Jac x y 1
  else
    let z2 := fmul (jz p) (jz p) in
    let h := fsub (fmul x z2) (jx p) in
    let r := fsub (fmul y (fmul z2 (jz p))) (jy p) in
    let h2 := fmul h h in
    let h3 := fmul h h2 in
    let v := fmul (jx p) h2 in
    let x3 := fsub (fsub (fmul r r) h3) (fmul 2 v) in
    Jac x3 (fsub (fmul r (fsub v x3)) (fmul (jy p) h3)) (fmul (jz p) h).
Fixpoint jmul (k : positive) (x y : N) : jac :=
  match k with
  | xH => Jac x y 1
  | xO k => jdouble (jmul k x y)
  | xI k => jadd (jdouble (jmul k x y)) x y
  end.
(** The generator (SEC 2, section 2.4.1). *)
Definition GX : N := 0x79be667ef9dcbbac55a06295ce870b07029bfcdb2dce28d959f2815b16f81798.
Definition GY : N := 0x483ada7726a3c4655da4fbfc0e1108a8fd17b448a68554199c47d08ffb10d4b8.
(** The multiple of the generator in affine coordinates. *)
Definition base_mul (k : N) : N * N :=
  match k with
  | N0 => (0, 0)
  | Npos k =>
      let p := jmul k GX GY in
      let zi := inv_mod P256 (jz p) in
      let zi2 := fmul zi zi in
      (fmul (jx p) zi2, fmul (jy p) (fmul zi2 zi))
  end.
(** [secp256k1::PublicKey::from_secret_key], reached from src/v2/mod.rs:807. *)
Definition real_pubkey (k : bytes) : bytes :=
  let '(x, y) := base_mul (be_num k) in (if N.odd y then x03 else x02) :: be_bytes 32 x.

(** ** ECDSA, for [Secp256k1::sign_ecdsa] at src/v2/mod.rs:803 *)

(** HMAC-SHA256 (RFC 2104) for keys up to 64 bytes. *)
Definition hmac (key msg : bytes) : bytes :=
  let k := key ++ zeros (64 - length key) in
  let pad c := map (fun b => n2b (N.lxor (b2n b) c)) k in
  real_sha256 (pad 0x5c ++ real_sha256 (pad 0x36 ++ msg)).
(** The first nonce of RFC 6979, section 3.2. *)
Definition nonce (msg key : bytes) : N :=
  let v0 := repeat x01 32 in
  let k1 := hmac (zeros 32) (v0 ++ [x00] ++ key ++ msg) in
  let v1 := hmac k1 v0 in
  let k2 := hmac k1 (v1 ++ [x01] ++ key ++ msg) in
  let v2 := hmac k2 v1 in
  be_num (hmac k2 v2).
(** [Secp256k1::sign_ecdsa], src/v2/mod.rs:803; the smaller of the two values s is taken. *)
Definition real_sign (msg key : bytes) : bytes :=
  let k := nonce msg key in
  let r := fst (base_mul k) mod ORDER in
  let s := (inv_mod ORDER k * ((be_num msg + r * be_num key) mod ORDER)) mod ORDER in
  der_sig r (if s <=? ORDER / 2 then s else ORDER - s).

(** ** Digests *)

(** The type without the flag ANYONECANPAY, and that flag ([split_anyonecanpay_flag]). *)
Definition base_type (ty : N) : N := N.land ty 0x1f.
Definition anyone (ty : N) : bool := N.testbit ty 7.
(** [SighashCache::legacy_signature_hash] (src/v2/mod.rs:846, 853). *)
Definition real_legacy (t : tx) (n : N) (code : bytes) (ty : N) : bytes :=
  if (base_type ty =? 3) && (blen (tx_output t) <=? n) then x01 :: zeros 31
  else
    let others i := if (base_type ty =? 2) || (base_type ty =? 3) then 0 else ti_sequence i in
    let all := combine (map N.of_nat (seq 0 (length (tx_input t)))) (tx_input t) in
    let ins := map (fun p => let i := snd p in
                             if fst p =? n then TxIn (ti_txid i) (ti_vout i) code (ti_sequence i) []
                             else TxIn (ti_txid i) (ti_vout i) [] (others i) [])
                   (filter (fun p => negb (anyone ty) || (fst p =? n)) all) in
    let outs := if base_type ty =? 2 then []
                else if base_type ty =? 3 then
                  repeat (TxOut (2 ^ 64 - 1) []) (N.to_nat n) ++ firstn 1 (skipn (N.to_nat n) (tx_output t))
                else tx_output t in
    real_sha256 (real_sha256 (enc_tx_nowit (Tx (tx_version t) (tx_lock_time t) ins outs) ++ le_enc 4 ty)).
(** [SighashCache::p2wpkh_signature_hash] and [p2wsh_signature_hash] (src/v2/mod.rs:857, 863, 869),
    BIP-143.  For P2WPKH the script code is that of [p2wpkh_script_code], which the callers in the
    model pass. *)
Definition real_segwit (t : tx) (n : N) (code : bytes) (value ty : N) : bytes :=
  let dsha b := real_sha256 (real_sha256 b) in
  let single := base_type ty =? 3 in
  let none := base_type ty =? 2 in
  let outpoint i := ti_txid i ++ le_enc 4 (ti_vout i) in
  let prevouts := if anyone ty then zeros 32 else dsha (flat_map outpoint (tx_input t)) in
  let seqs := if anyone ty || single || none then zeros 32
              else dsha (flat_map (fun i => le_enc 4 (ti_sequence i)) (tx_input t)) in
  let outs := if negb single && negb none then dsha (flat_map enc_txout (tx_output t))
              else if single && (n <? blen (tx_output t))
              then dsha (flat_map enc_txout (firstn 1 (skipn (N.to_nat n) (tx_output t))))
              else zeros 32 in
  match nth_error (tx_input t) (N.to_nat n) with
  | Some i => dsha (le_enc 4 (tx_version t) ++ prevouts ++ seqs ++ outpoint i ++ enc_bytes code ++ le_enc 8 value
                    ++ le_enc 4 (ti_sequence i) ++ outs ++ le_enc 4 (tx_lock_time t) ++ le_enc 4 ty)
  | None => []
  end.

(** The instance; the call sites are cited at the fields of [SignExt] (V2Sign.v).  The vectors use
    no extended keys and verify no signatures. *)
Definition real_signer : SignExt := {|
  legacy_digest := real_legacy;
  segwit_digest := real_segwit;
  sign_ecdsa := real_sign;
  verify_ecdsa := fun _ _ _ => false;
  secret_pubkey := real_pubkey;
  xprv := unit;
  xprv_fingerprint := fun _ => [];
  xprv_parent_fingerprint := fun _ => [];
  xprv_derive := fun _ _ => None;
  xprv_to_priv := fun _ => PrivKey true []
|}.
(** No taproot input occurs in the vectors (fields cited in V0Sign.v). *)
Definition no_schnorr : SchnorrExt := {|
  taproot_digest := fun _ _ _ _ _ => [];
  tweak_secret := fun k _ => k;
  sign_schnorr := fun _ _ => [];
  verify_schnorr := fun _ _ _ => false;
  output_key := fun k _ => k
|}.

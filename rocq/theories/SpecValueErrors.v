(** What is wrong with a value that src/serialize.rs refuses, written from the BIPs that define the
    values and the comments of the error type (src/serialize.rs:372-435), without reference to
    the decoders. *)
From Verif Require Import Base Consensus Ext Raw TapTree Serialize SpecCodec SpecTx SpecTapTree.
Local Open Scope N_scope.

(** A number of [k] bytes: too few bytes, or more than needed. *)
Definition int_fails (k : N) (bs : bytes) (e : serr) : Prop :=
  (blen bs < k /\ e = SConsensusEncoding CIo) \/ (k < blen bs /\ e = SConsensusEncoding CParseFailed).

(** The first byte of a longer compact size, the number of bytes that follow and the least number
    that is written in this way. *)
Definition size_forms : list (byte * N * N) := [(xfd, 2, 253); (xfe, 4, 2 ^ 16); (xff, 8, 2 ^ 32)].
(** A compact size that ends early or is longer than necessary. *)
Definition size_fails (bs : bytes) (c : cerr) : Prop :=
  (bs = [] /\ c = CIo)
  \/ (exists f k m r, In (f, k, m) size_forms /\ bs = f :: r /\ blen r < k /\ c = CIo)
  \/ (exists f k m v r, In (f, k, m) size_forms /\ bs = f :: v ++ r /\ blen v = k /\ le_value v < m
                        /\ c = CNonMinimalVarInt).
(** A byte string after its length. *)
Definition string_fails (bs : bytes) (c : cerr) : Prop :=
  size_fails bs c \/ (exists n l r, compact_size n l /\ bs = l ++ r /\ blen r < n /\ c = CIo).

(** An output: amount and script. *)
Definition txout_fails (bs : bytes) (e : serr) : Prop :=
  (blen bs < 8 /\ e = SConsensusEncoding CIo)
  \/ (exists v r c, bs = v ++ r /\ blen v = 8 /\ string_fails r c /\ e = SConsensusEncoding c)
  \/ (exists o b t, txout_wire o b /\ bs = b ++ t /\ t <> [] /\ e = SConsensusEncoding CParseFailed).

Section Spec.
Context `{X : Ext}.

(** Public keys of 33 bytes, or of 65 that start with 4. *)
Definition pubkey_fails (bs : bytes) (e : serr) : Prop :=
  e = SInvalidPublicKey
  /\ (blen bs = 33 \/ (blen bs = 65 /\ exists r, bs = x04 :: r) -> secp_parse bs = None).
Definition secp_fails (bs : bytes) (e : serr) : Prop := e = SInvalidSecp256k1PublicKey /\ secp_parse bs = None.
Definition xonly_fails (bs : bytes) (e : serr) : Prop :=
  e = SInvalidXOnlyPublicKey /\ (blen bs = 32 -> xonly_ok bs = false).

(** Signatures end with the byte of the sighash type; the byte for the default type of taproot
    signatures is left out. *)
Definition ecdsa_types : list byte := [x01; x02; x03; x81; x82; x83].
Definition esig_fails (bs : bytes) (e : serr) : Prop :=
  (bs = [] /\ e = SInvalidEcdsaSignature)
  \/ (exists s b, bs = s ++ [b] /\ ~ In b ecdsa_types /\ e = SNonStandardSighashType (b2n b))
  \/ (exists s b, bs = s ++ [b] /\ In b ecdsa_types /\ der_parse s = None /\ e = SInvalidEcdsaSignature).
Definition tsig_fails (bs : bytes) (e : serr) : Prop :=
  (blen bs <> 64 /\ blen bs <> 65 /\ e = SInvalidTaprootSignature)
  \/ (exists s b, bs = s ++ [b] /\ blen s = 64 /\ ~ In b (x00 :: ecdsa_types) /\ e = SNonStandardSighashType (b2n b)).

(** Fingerprint and child numbers, of four bytes each. *)
Definition source_fails (bs : bytes) (e : serr) : Prop :=
  (blen bs < 4 /\ e = SNotEnoughData)
  \/ (4 < blen bs /\ blen bs mod 4 <> 0 /\ e = SConsensusEncoding CIo).
(** Leaf hashes after their number, and a key source. *)
Definition origin_fails (bs : bytes) (e : serr) : Prop :=
  (exists c, size_fails bs c /\ e = SConsensusEncoding c)
  \/ (exists n l r, compact_size n l /\ bs = l ++ r /\ blen r < 32 * n /\ e = SConsensusEncoding CIo)
  \/ (exists n l h r, compact_size n l /\ bs = l ++ h ++ r /\ blen h = 32 * n /\ source_fails r e).

(** BIP-341: leaf versions are even and not 0x50. *)
Definition version_byte (b : byte) : Prop := b2n b mod 2 = 0 /\ b <> x50.
Definition leafscript_fails (bs : bytes) (e : serr) : Prop :=
  (bs = [] /\ e = SNotEnoughData) \/ (exists s b, bs = s ++ [b] /\ ~ version_byte b /\ e = SInvalidLeafVersion).
(** An x-only key and a leaf hash. *)
Definition xleaf_fails (bs : bytes) (e : serr) : Prop :=
  (blen bs < 32 /\ e = SNotEnoughData)
  \/ (exists k h, bs = k ++ h /\ blen k = 32 /\ xonly_ok k = false /\ e = SInvalidXOnlyPublicKey)
  \/ (exists k h, bs = k ++ h /\ blen k = 32 /\ xonly_ok k = true /\ blen h <> 32 /\ e = SInvalidHash).
(** BIP-341: a byte with the leaf version and the parity in its last bit, the internal key, up to
    128 hashes. *)
Definition is_controlblock (bs : bytes) : Prop :=
  exists b k hs, bs = b :: k ++ concat hs /\ b2n b - b2n b mod 2 <> 80 /\ blen k = 32 /\ xonly_ok k = true
    /\ Forall (fun h => blen h = 32) hs /\ blen hs <= 128.
Definition controlblock_fails (bs : bytes) (e : serr) : Prop := e = SInvalidControlBlock /\ ~ is_controlblock bs.

(** BIP-371: the leaves of a tree.  [after ls bs r]: the bytes start with the allowed leaves [ls],
    [r] follows. *)
Definition after (ls : list (nat * N * bytes)) (bs r : bytes) : Prop :=
  exists bss, Forall leaf_allowed ls /\ Forall2 leaf_wire ls bss /\ bs = concat bss ++ r.
Definition starts_tree (ls : list (nat * N * bytes)) : Prop :=
  exists t more, tree_allowed t /\ leaves_at 0 t = ls ++ more.
Definition taptree_fails (bs : bytes) (e : serr) : Prop :=
  exists ls r, after ls bs r /\
    (* nothing is missing in the leaves, but they are not those of a tree *)
    ((r = [] /\ (forall t, leaves_at 0 t <> ls) /\ e = STapTree)
     (* a depth without version *)
     \/ ((exists d, r = [d]) /\ e = STaproot)
     \/ (exists d v s c, r = d :: v :: s /\ string_fails s c /\ e = SConsensusEncoding c)
     \/ (exists d v s, r = d :: v :: s /\ ~ version_byte v /\ e = SInvalidLeafVersion)
     (* a leaf at a depth where it cannot be *)
     \/ (exists d v s l r', r = d :: v :: l ++ r' /\ string_wire s l /\ version_byte v
                           /\ ~ starts_tree (ls ++ [(N.to_nat (b2n d), b2n v, s)]) /\ e = STaproot)).

End Spec.

(** External functions and build configuration.

    Everything the crate calls in rust-bitcoin / libsecp256k1 that is not plain
    data shuffling enters the model through the class [Ext]; theorems quantify
    over all instances.  Laws that some theorems need are the fields of
    [ExtLaws]; [ExtInstance.v] constructs an instance that satisfies them. *)
From Verif Require Import Base.
Local Open Scope N_scope.

Class Ext := {
  (** [sha256::Hash::hash], called at src/v2/map/input.rs:534-571 (preimages). *)
  sha256 : bytes -> bytes;
  (** [ripemd160::Hash::hash], src/v2/map/input.rs:534. *)
  ripemd160 : bytes -> bytes;
  (** [secp256k1::PublicKey::from_slice], src/serialize.rs:87-95; the result is the
      compressed (33 byte) form of the point. *)
  secp_parse : bytes -> option bytes;
  (** [secp256k1::PublicKey::serialize_uncompressed], reached from
      src/serialize.rs:73-79, as a function of the compressed form. *)
  secp_uncompress : bytes -> bytes;
  (** [XOnlyPublicKey::from_slice] succeeds, src/serialize.rs:232-236. *)
  xonly_ok : bytes -> bool;
  (** [secp256k1::ecdsa::Signature::from_der], src/serialize.rs:116; the result is the
      DER form in which the signature is serialized. *)
  der_parse : bytes -> option bytes;
  (** [TapNodeHash::from_script] (leaf hash of script and leaf version) and
      [TapNodeHash::from_node_hashes] (hash of the ordered pair of children),
      reached from src/serialize.rs:364-368. *)
  tap_leaf_hash : bytes -> N -> bytes;
  tap_node_hash : bytes -> bytes -> bytes
}.

(** [hash160], [sha256d] as in bitcoin_hashes (src/v2/map/input.rs:552-571). *)
Definition hash160 `{Ext} (b : bytes) : bytes := ripemd160 (sha256 b).
Definition sha256d `{Ext} (b : bytes) : bytes := sha256 (sha256 b).

(** Facts about these functions that hold for the real ones. *)
Class ExtLaws (X : Ext) : Prop := {
  sha256_len : forall b, length (sha256 b) = 32%nat;
  ripemd160_len : forall b, length (ripemd160 b) = 20%nat;
  (** A parsed key has a 33 byte compressed form, which parses to itself. *)
  secp_parse_len : forall b c, secp_parse b = Some c -> length c = 33%nat;
  secp_parse_idem : forall b c, secp_parse b = Some c -> secp_parse c = Some c;
  (** Only 33 and 65 byte strings are keys. *)
  secp_parse_domain : forall b c, secp_parse b = Some c -> length b = 33%nat \/ length b = 65%nat;
  (** A 33 byte key is its own compressed form. *)
  secp_parse_33 : forall b c, secp_parse b = Some c -> length b = 33%nat -> c = b;
  (** The uncompressed form of a key is 04 followed by 64 bytes and parses back;
      and it is the only 65 byte form starting with 04. *)
  secp_uncompress_len : forall c, secp_parse c = Some c -> length (secp_uncompress c) = 65%nat;
  secp_uncompress_head : forall c, secp_parse c = Some c -> hd x00 (secp_uncompress c) = x04;
  secp_uncompress_parse : forall c, secp_parse c = Some c -> secp_parse (secp_uncompress c) = Some c;
  secp_uncompress_unique : forall b c, secp_parse b = Some c -> length b = 65%nat -> hd x00 b = x04 ->
                                       b = secp_uncompress c;
  (** A parsed DER signature re-serializes to at most 72 bytes that parse to themselves. *)
  der_parse_idem : forall b c, der_parse b = Some c -> der_parse c = Some c;
  der_parse_len : forall b c, der_parse b = Some c -> (length c <= 72)%nat;
  tap_leaf_hash_len : forall s v, length (tap_leaf_hash s v) = 32%nat;
  tap_node_hash_len : forall a b, length (tap_node_hash a b) = 32%nat;
}.

(** Build configuration. *)
Class Cfg := {
  (** The cargo feature "silent-payments" (Cargo.toml). *)
  feat_sp : bool;
  (** [cfg(debug_assertions)]: [debug_assert!] and integer overflow checks are on. *)
  debug_assertions : bool;
  (** [size_of::<Input>()] and [size_of::<Output>()], used by [Vec::with_capacity]
      at src/v2/mod.rs:634 and 645. *)
  size_input : N;
  size_output : N
}.

(** The structs are not empty. *)
Class CfgLaws (C : Cfg) : Prop := {
  size_input_pos : 0 < size_input;
  size_output_pos : 0 < size_output
}.

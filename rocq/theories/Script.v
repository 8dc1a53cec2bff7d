(** The script templates of rust-bitcoin 0.32 that src/v2/mod.rs:910-945 and
    src/v0/bitcoin/mod.rs:668-703 test for. *)
From Verif Require Import Base.
Local Open Scope N_scope.

(** Byte at a position; the templates test the length first. *)
Definition byte_at (s : bytes) (n : nat) : byte := nth n s x00.

(** [Script::is_p2sh] (src/v2/mod.rs:916): OP_HASH160 OP_PUSHBYTES_20 <20 bytes> OP_EQUAL. *)
Definition is_p2sh (s : bytes) : bool :=
  (blen s =? 23) && beq (byte_at s 0) xa9 && beq (byte_at s 1) x14 && beq (byte_at s 22) x87.
(** [WitnessVersion::try_from(Opcode)]: OP_0 or OP_PUSHNUM_1 to OP_PUSHNUM_16. *)
Definition witness_version_opcode (b : byte) : bool :=
  (b2n b =? 0) || ((81 <=? b2n b) && (b2n b <=? 96)).
(** [Script::is_witness_program] (src/v2/mod.rs:916). *)
Definition is_witness_program (s : bytes) : bool :=
  (4 <=? blen s) && (blen s <=? 42) && witness_version_opcode (byte_at s 0)
  && (2 <=? b2n (byte_at s 1)) && (b2n (byte_at s 1) <=? 40) && (blen s - 2 =? b2n (byte_at s 1)).
(** [Script::is_p2wpkh] (src/v2/mod.rs:920, 929): OP_0 OP_PUSHBYTES_20. *)
Definition is_p2wpkh (s : bytes) : bool :=
  (blen s =? 22) && beq (byte_at s 0) x00 && beq (byte_at s 1) x14.
(** [Script::is_p2wsh] (src/v2/mod.rs:924, 932): OP_0 OP_PUSHBYTES_32. *)
Definition is_p2wsh (s : bytes) : bool :=
  (blen s =? 34) && beq (byte_at s 0) x00 && beq (byte_at s 1) x20.
(** [Script::is_p2tr] (src/v2/mod.rs:938): OP_PUSHNUM_1 OP_PUSHBYTES_32. *)
Definition is_p2tr (s : bytes) : bool :=
  (blen s =? 34) && beq (byte_at s 0) x51 && beq (byte_at s 1) x20.
(** [Script::p2wpkh_script_code], called by [SighashCache::p2wpkh_signature_hash]
    (src/v2/mod.rs:856, 862): OP_DUP OP_HASH160 <20 bytes> OP_EQUALVERIFY OP_CHECKSIG. *)
Definition p2wpkh_script_code (s : bytes) : option bytes :=
  if is_p2wpkh s then Some ([x76; xa9; x14] ++ skipn 2 s ++ [x88; xac]) else None.

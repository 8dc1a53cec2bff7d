(** Specification of the wire format, written from BIP-174 and the Bitcoin protocol
    documentation, without reference to the model of the code. *)
From Verif Require Import Base Raw.
Local Open Scope N_scope.

(** Value of a little endian byte string. *)
Fixpoint le_value (b : bytes) : N :=
  match b with
  | [] => 0
  | x :: r => b2n x + 256 * le_value r
  end.

(** [compact_size n c]: [c] is the (only) compact size encoding of [n]. *)
Inductive compact_size : N -> bytes -> Prop :=
| cs_1 : forall b, b2n b < 253 -> compact_size (b2n b) [b]
| cs_3 : forall b, length b = 2%nat -> 253 <= le_value b -> compact_size (le_value b) (xfd :: b)
| cs_5 : forall b, length b = 4%nat -> 2 ^ 16 <= le_value b -> compact_size (le_value b) (xfe :: b)
| cs_9 : forall b, length b = 8%nat -> 2 ^ 32 <= le_value b -> compact_size (le_value b) (xff :: b).

(** BIP-174: <keypair> := <key> <value>, <key> := <keylen> <keytype> <keydata>,
    <value> := <valuelen> <valuedata>. *)
Definition pair_wire (p : pair) (b : bytes) : Prop :=
  exists kl vl,
    compact_size (1 + blen (k_data (p_key p))) kl /\
    compact_size (blen (p_value p)) vl /\
    b = kl ++ [k_type (p_key p)] ++ k_data (p_key p) ++ vl ++ p_value p.

(** BIP-174: the key data of a proprietary key is
    <identifier length> <identifier> <subtype> <subkeydata>, its key type is 0xFC. *)
Definition propkey_wire (k : propkey) (b : bytes) : Prop :=
  exists pl, compact_size (blen (pk_prefix k)) pl /\
    b = pl ++ pk_prefix k ++ [pk_subtype k] ++ pk_key k.

(** A key-value map: the pairs in order, then a zero byte. *)
Inductive map_wire : list pair -> bytes -> Prop :=
| mw_nil : map_wire [] [x00]
| mw_cons : forall p l b c, pair_wire p b -> map_wire l c -> map_wire (p :: l) (b ++ c).

(** Specification of the text form and the numbers of sighash types, written without the
    functions of the model. *)
From Coq Require Import String.
From Verif Require Import Base SighashType.
Local Open Scope N_scope.

(** The numbers of the ECDSA types (BIP-143) and the taproot types (BIP-341). *)
Definition ecdsa_table : list (ecdsa_ty * N) :=
  [(EAll, 0x01); (ENone, 0x02); (ESingle, 0x03); (EAllAcp, 0x81); (ENoneAcp, 0x82); (ESingleAcp, 0x83)].
Definition tap_table : list (tap_ty * (N * string)) :=
  [(TDefault, (0x00, "SIGHASH_DEFAULT"%string));
   (TAll, (0x01, "SIGHASH_ALL"%string));
   (TNone, (0x02, "SIGHASH_NONE"%string));
   (TSingle, (0x03, "SIGHASH_SINGLE"%string));
   (TAllAcp, (0x81, "SIGHASH_ALL|SIGHASH_ANYONECANPAY"%string));
   (TNoneAcp, (0x82, "SIGHASH_NONE|SIGHASH_ANYONECANPAY"%string));
   (TSingleAcp, (0x83, "SIGHASH_SINGLE|SIGHASH_ANYONECANPAY"%string))].

(** A character that stands for a hex digit, in the given alphabets. *)
Definition digit_of (alphabet : string) (c : byte) (v : N) : Prop :=
  nth_error (list_byte_of_string alphabet) (N.to_nat v) = Some c.
Definition lower_digit : byte -> N -> Prop := digit_of "0123456789abcdef".
Definition any_digit (c : byte) (v : N) : Prop := lower_digit c v \/ digit_of "0123456789ABCDEF" c v.
(** A non-empty string of digits and its value. *)
Inductive digits (P : byte -> N -> Prop) : bytes -> N -> Prop :=
| DOne c v : P c v -> digits P [c] v
| DMore s n c v : digits P s n -> P c v -> digits P (s ++ [c]) (16 * n + v).

(** The strings that are read as a sighash type. *)
Inductive sighash_text : bytes -> N -> Prop :=
| STName t n s : In (t, (n, s)) tap_table -> sighash_text (list_byte_of_string s) n
| STHex (prefixes : nat) (plus : bool) d n :
    digits any_digit d n -> n < 2 ^ 32 ->
    sighash_text (concat (repeat (list_byte_of_string "0x") prefixes)
                  ++ (if plus then list_byte_of_string "+" else []) ++ d) n.

(** The string that a sighash type is printed as: its taproot name, or a lower-case hex number
    without leading zeros. *)
Inductive sighash_printed (n : N) : bytes -> Prop :=
| SPName t s : In (t, (n, s)) tap_table -> sighash_printed n (list_byte_of_string s)
| SPHex d : (forall t s, ~ In (t, (n, s)) tap_table) -> digits lower_digit d n -> hd x00 d <> x30 ->
    sighash_printed n (list_byte_of_string "0x" ++ d).

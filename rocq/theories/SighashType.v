(** Model of src/sighash_type.rs: the sighash type of an input, its conversions and its text
    form.  Text is a list of bytes (UTF-8). *)
From Coq Require Import String.
From Verif Require Import Base.
Local Open Scope N_scope.

(** [bitcoin::EcdsaSighashType] (src/sighash_type.rs:52, 67). *)
Inductive ecdsa_ty : Type := EAll | ENone | ESingle | EAllAcp | ENoneAcp | ESingleAcp.
(** [bitcoin::TapSighashType] (src/sighash_type.rs:58, 73). *)
Inductive tap_ty : Type := TDefault | TAll | TNone | TSingle | TAllAcp | TNoneAcp | TSingleAcp.

(** [ecdsa_hash_ty as u32] (src/sighash_type.rs:54): the discriminants of [EcdsaSighashType]. *)
Definition ecdsa_num (t : ecdsa_ty) : N :=
  match t with
  | EAll => 1 | ENone => 2 | ESingle => 3 | EAllAcp => 129 | ENoneAcp => 130 | ESingleAcp => 131
  end.
(** [taproot_hash_ty as u32] (src/sighash_type.rs:60): the discriminants of [TapSighashType]. *)
Definition tap_num (t : tap_ty) : N :=
  match t with
  | TDefault => 0 | TAll => 1 | TNone => 2 | TSingle => 3
  | TAllAcp => 129 | TNoneAcp => 130 | TSingleAcp => 131
  end.

(** [EcdsaSighashType::from_standard] (src/sighash_type.rs:68). *)
Definition ecdsa_from_std (n : N) : option ecdsa_ty :=
  match n with
  | 1 => Some EAll | 2 => Some ENone | 3 => Some ESingle
  | 129 => Some EAllAcp | 130 => Some ENoneAcp | 131 => Some ESingleAcp
  | _ => None
  end.
(** [TapSighashType::from_consensus_u8] (src/sighash_type.rs:78). *)
Definition tap_from_u8 (n : N) : option tap_ty :=
  match n with
  | 0 => Some TDefault | 1 => Some TAll | 2 => Some TNone | 3 => Some TSingle
  | 129 => Some TAllAcp | 130 => Some TNoneAcp | 131 => Some TSingleAcp
  | _ => None
  end.

(** src/sighash_type.rs:52-56 [From<EcdsaSighashType>]; a [PsbtSighashType] is its number. *)
Definition from_ecdsa (t : ecdsa_ty) : N := ecdsa_num t.
(** src/sighash_type.rs:58-62 [From<TapSighashType>]. *)
Definition from_tap (t : tap_ty) : N := tap_num t.
(** src/sighash_type.rs:67-69 [PsbtSighashType::ecdsa_hash_ty]; [None] is
    [NonStandardSighashTypeError], which carries the number. *)
Definition sighash_ecdsa_ty (n : N) : option ecdsa_ty := ecdsa_from_std n.
(** src/sighash_type.rs:73-80 [PsbtSighashType::taproot_hash_ty]; [None] is
    [InvalidSighashTypeError], which carries the number. *)
Definition sighash_tap_ty (n : N) : option tap_ty :=
  if 255 <? n then None else tap_from_u8 (n mod 256).

(** A string literal as bytes. *)
Definition str (s : string) : bytes := list_byte_of_string s.
Arguments str s%string.

(** [Display for TapSighashType] (src/sighash_type.rs:25). *)
Definition tap_name (t : tap_ty) : bytes :=
  match t with
  | TDefault => str "SIGHASH_DEFAULT"
  | TAll => str "SIGHASH_ALL"
  | TNone => str "SIGHASH_NONE"
  | TSingle => str "SIGHASH_SINGLE"
  | TAllAcp => str "SIGHASH_ALL|SIGHASH_ANYONECANPAY"
  | TNoneAcp => str "SIGHASH_NONE|SIGHASH_ANYONECANPAY"
  | TSingleAcp => str "SIGHASH_SINGLE|SIGHASH_ANYONECANPAY"
  end.
(** [TapSighashType::from_str] (src/sighash_type.rs:40): the strings it matches, in order. *)
Definition tap_parse (s : bytes) : option tap_ty :=
  if bytes_eqb s (str "SIGHASH_DEFAULT") then Some TDefault
  else if bytes_eqb s (str "SIGHASH_ALL") then Some TAll
  else if bytes_eqb s (str "SIGHASH_NONE") then Some TNone
  else if bytes_eqb s (str "SIGHASH_SINGLE") then Some TSingle
  else if bytes_eqb s (str "SIGHASH_ALL|SIGHASH_ANYONECANPAY") then Some TAllAcp
  else if bytes_eqb s (str "SIGHASH_NONE|SIGHASH_ANYONECANPAY") then Some TNoneAcp
  else if bytes_eqb s (str "SIGHASH_SINGLE|SIGHASH_ANYONECANPAY") then Some TSingleAcp
  else None.

(** A lower case hex digit (src/sighash_type.rs:24). *)
Definition hex_digit (n : N) : byte := if n <? 10 then n2b (48 + n) else n2b (87 + n).
(** [{:x}] (src/sighash_type.rs:24): the hex digits of a number without leading zeros, most
    significant first; the fuel of the model is a bound for the number of digits. *)
Fixpoint hex_digits (fuel : nat) (n : N) : bytes :=
  match fuel with
  | O => []
  | S f => (if n / 16 =? 0 then [] else hex_digits f (n / 16)) ++ [hex_digit (n mod 16)]
  end.
(** src/sighash_type.rs:21-28 [Display for PsbtSighashType]. *)
Definition sighash_display (n : N) : bytes :=
  match sighash_tap_ty n with
  | None => str "0x" ++ hex_digits 8 n
  | Some t => tap_name t
  end.

(** [char::to_digit(16)], called by [u32::from_str_radix] (src/sighash_type.rs:45). *)
Definition hex_value (b : byte) : option N :=
  let n := b2n b in
  if (48 <=? n) && (n <=? 57) then Some (n - 48)
  else if (97 <=? n) && (n <=? 102) then Some (n - 87)
  else if (65 <=? n) && (n <=? 70) then Some (n - 55)
  else None.
(** The loop of [u32::from_str_radix]: multiplication and addition are checked. *)
Fixpoint hex_acc (acc : N) (s : bytes) : option N :=
  match s with
  | [] => Some acc
  | b :: r =>
      match hex_value b with
      | None => None
      | Some d => if acc * 16 <? U32 then if acc * 16 + d <? U32 then hex_acc (acc * 16 + d) r else None else None
      end
  end.
(** [u32::from_str_radix(s, 16)] (src/sighash_type.rs:45): a leading [+] is skipped, no digits
    is an error. *)
Definition u32_from_hex (s : bytes) : option N :=
  match s with
  | [] => None
  | [b] => if beq b x2b || beq b x2d then None else hex_acc 0 s
  | b :: r => if beq b x2b then hex_acc 0 r else hex_acc 0 s
  end.
(** [str::trim_start_matches("0x")] (src/sighash_type.rs:45): all leading copies are removed. *)
Fixpoint trim_0x (s : bytes) : bytes :=
  match s with
  | b :: c :: r => if beq b x30 && beq c x78 then trim_0x r else s
  | _ => s
  end.
(** src/sighash_type.rs:34-50 [FromStr for PsbtSighashType]; [None] is
    [ParseSighashTypeError], which carries the string. *)
Definition sighash_from_str (s : bytes) : option N :=
  match tap_parse s with
  | Some t => Some (from_tap t)
  | None => u32_from_hex (trim_0x s)
  end.

(** Model of the text form of a PSBT (src/v2/mod.rs:1256-1314, src/v0/bitcoin/mod.rs:1154-1214)
    and of what happens when an error is printed (src/v2/error.rs, src/v2/extract.rs). *)
From Coq Require Import Strings.String.
From Verif Require Import Base OMap Consensus Ext Raw TapTree Serialize MapCodec SighashType
  V2Global V2Input V2Output V2Psbt V2Roles V0Error V0Psbt.
Local Open Scope N_scope.

(** ** The crate base64: [BASE64_STANDARD] *)

(** The alphabet of [BASE64_STANDARD] (src/v2/mod.rs:1263). *)
Definition B64_ALPHABET : bytes :=
  str "ABCDEFGHIJKLMNOPQRSTUVWXYZabcdefghijklmnopqrstuvwxyz0123456789+/".
(** The padding character of [BASE64_STANDARD] (src/v2/mod.rs:1263). *)
Definition B64_PAD : byte := x3d.

(** The symbol of a number below 64 (src/v2/mod.rs:1269, in the crate base64). *)
Definition b64_char (n : N) : byte := nth (N.to_nat n) B64_ALPHABET B64_PAD.
(** The number of a symbol (src/v2/mod.rs:1277, in the crate base64). *)
Definition b64_value (c : byte) : option N :=
  let n := b2n c in
  if (65 <=? n) && (n <=? 90) then Some (n - 65)
  else if (97 <=? n) && (n <=? 122) then Some (n - 71)
  else if (48 <=? n) && (n <=? 57) then Some (n + 4)
  else if n =? 43 then Some 62
  else if n =? 47 then Some 63
  else None.

(** [Base64Display::new(_, &BASE64_STANDARD)] (src/v2/mod.rs:1269, src/v0/bitcoin/mod.rs:1204). *)
Fixpoint b64_encode (bs : bytes) : bytes :=
  match bs with
  | [] => []
  | [a] => [b64_char (b2n a / 4); b64_char (b2n a mod 4 * 16); B64_PAD; B64_PAD]
  | [a; b] =>
      [b64_char (b2n a / 4); b64_char (b2n a mod 4 * 16 + b2n b / 16);
       b64_char (b2n b mod 16 * 4); B64_PAD]
  | a :: b :: c :: r =>
      b64_char (b2n a / 4) :: b64_char (b2n a mod 4 * 16 + b2n b / 16)
      :: b64_char (b2n b mod 16 * 4 + b2n c / 64) :: b64_char (b2n c mod 64) :: b64_encode r
  end.

(** [base64::DecodeError] (src/v2/mod.rs:1289); which of its variants is returned is not modelled. *)
Inductive b64err : Type := B64Error.

(** The number of a symbol or the error of the decoder (src/v2/mod.rs:1277, in the crate base64). *)
Definition b64_digit (c : byte) : res b64err N := ok_or (b64_value c) B64Error.

(** [BASE64_STANDARD.decode] (src/v2/mod.rs:1277, src/v0/bitcoin/mod.rs:1212): padding is required
    and trailing bits must be zero. *)
Fixpoint b64_decode (s : bytes) : res b64err bytes :=
  match s with
  | [] => Ok []
  | c1 :: c2 :: c3 :: c4 :: r =>
      v1 <- b64_digit c1 ;;
      v2 <- b64_digit c2 ;;
      match r with
      | [] =>
          if beq c3 B64_PAD then
            _ <- fail_if (negb (beq c4 B64_PAD)) B64Error ;;
            _ <- fail_if (negb (v2 mod 16 =? 0)) B64Error ;;
            Ok [n2b (v1 * 4 + v2 / 16)]
          else
            v3 <- b64_digit c3 ;;
            if beq c4 B64_PAD then
              _ <- fail_if (negb (v3 mod 4 =? 0)) B64Error ;;
              Ok [n2b (v1 * 4 + v2 / 16); n2b (v2 mod 16 * 16 + v3 / 4)]
            else
              v4 <- b64_digit c4 ;;
              Ok [n2b (v1 * 4 + v2 / 16); n2b (v2 mod 16 * 16 + v3 / 4); n2b (v3 mod 4 * 64 + v4)]
      | _ =>
          v3 <- b64_digit c3 ;;
          v4 <- b64_digit c4 ;;
          l <- b64_decode r ;;
          Ok (n2b (v1 * 4 + v2 / 16) :: n2b (v2 mod 16 * 16 + v3 / 4) :: n2b (v3 mod 4 * 64 + v4) :: l)
      end
  | _ => Err B64Error
  end.

(** ** The text of a PSBT *)

(** src/v2/mod.rs:1284-1290 [ParsePsbtError]. *)
Inductive parseerr : Type :=
| PEPsbtEncoding (e : deserr)
| PEBase64Encoding (e : b64err).

(** src/v0/bitcoin/mod.rs:1165-1173 [PsbtParseError]. *)
Inductive parse0err : Type :=
| PE0PsbtEncoding (e : err0)
| PE0Base64Encoding (e : b64err).

Section Text.
Context `{X : Ext} `{C : Cfg}.

(** src/v2/mod.rs:1267-1271 [Display for Psbt]. *)
Definition psbt_to_string (p : psbt) : bytes := b64_encode (psbt_serialize p).

(** src/v2/mod.rs:1273-1280 [FromStr for Psbt]. *)
Definition psbt_from_str (s : bytes) : res parseerr psbt :=
  data <- map_err PEBase64Encoding (b64_decode s) ;;
  map_err PEPsbtEncoding (psbt_deserialize data).

(** src/v0/bitcoin/mod.rs:1202-1206 [Display for Psbt]. *)
Definition psbt0_to_string (p : psbt0) : bytes := b64_encode (psbt0_serialize p).

(** src/v0/bitcoin/mod.rs:1208-1215 [FromStr for Psbt]. *)
Definition psbt0_from_str (s : bytes) : res parse0err psbt0 :=
  data <- map_err PE0Base64Encoding (b64_decode s) ;;
  map_err PE0PsbtEncoding (psbt0_deserialize data).

End Text.

(** ** Printing errors

    Only whether the function returns or panics is modelled, not the text that it writes. *)

(** The outcome of [Display::fmt] (src/v2/error.rs:36-38). *)
Definition printed := res Empty_set unit.

(** src/v2/error.rs:36-38 [Display for DeserializeError]: [todo!()]. *)
Definition deserr_display (e : deserr) : printed := Panic.
(** src/v2/error.rs:41-43 [DeserializeError::source]: [todo!()]. *)
Definition deserr_source (e : deserr) : printed := Panic.

(** src/v2/extract.rs:225-227 [Display for ExtractTxError]: [todo!()]. *)
Definition extracttxerr_display (e : extracttxerr) : printed := Panic.

(** src/error.rs:109-123 [write_err!]: with the feature "std" the source is not printed. *)
Definition write_err (std : bool) (source : printed) : printed := if std then Ok tt else source.

(** src/v2/error.rs:312-318 [Display for DetermineLockTimeError]. *)
Definition dlterr_display (e : dlterr) : printed := Ok tt.

(** src/error.rs:37-48 [Display for FeeError]; a [FundingUtxoError] is printed without a panic
    (src/error.rs:81-91). *)
Definition feeerr_display (std : bool) (e : feeerr) : printed :=
  match e with
  | FeeFundingUtxo _ => write_err std (Ok tt)
  | _ => Ok tt
  end.

(** src/v2/extract.rs:137-147 [Display for ExtractError]. *)
Definition extracterr_display (std : bool) (e : extracterr) : printed :=
  match e with
  | ExPsbtNotFinalized => Ok tt
  | ExDetermineLockTime e => write_err std (dlterr_display e)
  end.

(** src/v2/extract.rs:182-192 [Display for ExtractTxFeeRateError]. *)
Definition extractfeeerr_display (std : bool) (e : extractfeeerr) : printed :=
  match e with
  | EFFee e => write_err std (feeerr_display std e)
  | EFFeeTooHigh _ _ => Ok tt
  | EFExtractTx e => write_err std (extracttxerr_display e)
  end.

(** src/v2/mod.rs:1292-1301 [Display for ParsePsbtError]; the error of the crate base64 prints
    without a panic. *)
Definition parseerr_display (std : bool) (e : parseerr) : printed :=
  match e with
  | PEPsbtEncoding e => write_err std (deserr_display e)
  | PEBase64Encoding _ => write_err std (Ok tt)
  end.

(** A report of an error and its sources (what [anyhow] or [unwrap_or_else(|e| eprintln!(..))] with a
    loop over [source()] do), src/v2/mod.rs:1292-1314: the error, then its source, and the source of
    that. *)
Definition parseerr_report (std : bool) (e : parseerr) : printed :=
  _ <- parseerr_display std e ;;
  match e with
  | PEPsbtEncoding e => _ <- deserr_display e ;; deserr_source e
  | PEBase64Encoding _ => Ok tt
  end.

(** What base64 is, after RFC 4648: the bits of the bytes, six at a time.  Nothing here uses
    the encoder or the decoder of the model. *)
From Coq Require Import Strings.String.
From Verif Require Import Base.
Local Open Scope N_scope.

(** The [k] lowest bits of a number, most significant first. *)
Fixpoint bits (k : nat) (n : N) : list bool :=
  match k with
  | O => []
  | S k => N.testbit n (N.of_nat k) :: bits k n
  end.

(** RFC 4648, table 1. *)
Definition rfc4648_alphabet : string :=
  "ABCDEFGHIJKLMNOPQRSTUVWXYZabcdefghijklmnopqrstuvwxyz0123456789+/".

(** The symbols [cs] stand for the numbers [vs]. *)
Definition symbols (vs : list N) (cs : bytes) : Prop :=
  Forall2 (fun v c => nth_error (list_byte_of_string rfc4648_alphabet) (N.to_nat v) = Some c /\ v < 64) vs cs.

(** [text] is the base64 form of [bs]: symbols, six bits each, for the bits of the bytes followed by
    two zero bits for each padding character; the length is a multiple of four. *)
Definition base64 (bs text : bytes) : Prop :=
  exists vs cs pad,
    text = cs ++ repeat x3d pad /\ (pad <= 2)%nat /\ (exists m, length text = 4 * m)%nat /\
    symbols vs cs /\
    concat (map (bits 6) vs) = concat (map (fun b => bits 8 (b2n b)) bs) ++ repeat false (2 * pad).

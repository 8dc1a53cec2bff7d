(** Public keys as SEC 1 and SEC 2 define them. *)
From Coq Require Import ZArith List.
From Verif Require Import Base.
Import ListNotations.
Local Open Scope Z_scope.

(** The field and the curve (SEC 2, section 2.4.1). *)
Definition field : Z := 2 ^ 256 - 2 ^ 32 - 977.
Definition point (x y : Z) : Prop := 0 <= x < field /\ 0 <= y < field /\ (y ^ 2 - (x ^ 3 + 7)) mod field = 0.

(** 32 bytes for a number, most significant first (SEC 1, section 2.3.7). *)
Fixpoint number (b : bytes) : Z :=
  match b with
  | [] => 0
  | x :: r => Z.of_N (b2n x) * 256 ^ Z.of_nat (length r) + number r
  end.
Definition octets (z : Z) (b : bytes) : Prop := length b = 32%nat /\ number b = z.

(** The forms of a point (SEC 1, section 2.3.3); the hybrid one is of ANSI X9.62. *)
Definition compressed (x y : Z) (b : bytes) : Prop :=
  exists xb, octets x xb /\ b = (if Z.even y then x02 else x03) :: xb.
Definition uncompressed (x y : Z) (b : bytes) : Prop :=
  exists xb yb, octets x xb /\ octets y yb /\ b = x04 :: xb ++ yb.
Definition hybrid (x y : Z) (b : bytes) : Prop :=
  exists xb yb, octets x xb /\ octets y yb /\ b = (if Z.even y then x06 else x07) :: xb ++ yb.

(** The order of the base point (SEC 2, section 2.4.1). *)
Definition order : Z := 0xfffffffffffffffffffffffffffffffebaaedce6af48a03bbfd25e8cd0364141.
(** The distinguished encoding of a number that is not negative (X.690, sections 8.3 and 10.1): tag,
    length below 128 and the shortest content without a sign bit; and of a sequence of two. *)
Definition integer_of (z : Z) (b : bytes) : Prop :=
  exists v, b = x02 :: n2b (N.of_nat (length v)) :: v /\ (1 <= length v < 128)%nat /\ number v = z
    /\ (Z.of_N (b2n (hd x00 v)) < 128) /\ (hd x00 v = x00 -> (1 < length v)%nat -> 128 <= Z.of_N (b2n (nth 1 v x00))).
Definition sequence_of (r s : Z) (b : bytes) : Prop :=
  exists br bs, integer_of r br /\ integer_of s bs /\ (length (br ++ bs) < 128)%nat
    /\ b = x30 :: n2b (N.of_nat (length (br ++ bs))) :: br ++ bs.

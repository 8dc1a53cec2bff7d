(** The hash functions, public keys and DER signatures that the crate gets from bitcoin_hashes,
    secp256k1 and rust-bitcoin, computed for real.  The theorems quantify over all such functions
    ([Ext]); this instance serves to evaluate the test vectors of the repository in the model
    (Vectors.v).  RealLaws.v proves [ExtLaws] of an instance that differs in [on_curve] only. *)
From Verif Require Import Base Ext.
Local Open Scope N_scope.

(** ** SHA-256 (FIPS 180-4), for [sha256::Hash::hash] at src/v2/map/input.rs:809 *)

(** A big endian number, for the calls cited above. *)
Definition be_num (b : bytes) : N := fold_left (fun a x => N.shiftl a 8 + b2n x) b 0.
(** [n] bytes of a number, big endian (calls as above). *)
Definition be_bytes (n : nat) (x : N) : bytes := rev (le_enc n x).
(** The 32 bit operations of FIPS 180-4 (section 3.2), behind src/v2/map/input.rs:809. *)
Definition w32 (x : N) : N := N.land x 0xffffffff.
Definition rotr (n x : N) : N := N.lor (N.shiftr x n) (w32 (N.shiftl x (32 - n))).
Definition rotl (n x : N) : N := rotr (32 - n) x.
Definition not32 (x : N) : N := N.lxor x 0xffffffff.
(** Consecutive chunks of [n] bytes (section 5.2). *)
Fixpoint chunks (fuel n : nat) (b : bytes) : list bytes :=
  match fuel, b with
  | O, _ | _, [] => []
  | S f, _ => firstn n b :: chunks f n (skipn n b)
  end.
(** Padding to a multiple of 64 bytes with the length given by [len] (section 5.1.1). *)
Definition pad64 (len : N -> bytes) (b : bytes) : bytes :=
  let n := blen b in b ++ [x80] ++ zeros (N.to_nat ((119 - n mod 64) mod 64)) ++ len (8 * n).

(** The constants of FIPS 180-4, sections 4.2.2 and 5.3.3. *)
Definition K256 : list N :=
  [0x428a2f98; 0x71374491; 0xb5c0fbcf; 0xe9b5dba5; 0x3956c25b; 0x59f111f1; 0x923f82a4; 0xab1c5ed5;
   0xd807aa98; 0x12835b01; 0x243185be; 0x550c7dc3; 0x72be5d74; 0x80deb1fe; 0x9bdc06a7; 0xc19bf174;
   0xe49b69c1; 0xefbe4786; 0xfc19dc6; 0x240ca1cc; 0x2de92c6f; 0x4a7484aa; 0x5cb0a9dc; 0x76f988da;
   0x983e5152; 0xa831c66d; 0xb00327c8; 0xbf597fc7; 0xc6e00bf3; 0xd5a79147; 0x6ca6351; 0x14292967;
   0x27b70a85; 0x2e1b2138; 0x4d2c6dfc; 0x53380d13; 0x650a7354; 0x766a0abb; 0x81c2c92e; 0x92722c85;
   0xa2bfe8a1; 0xa81a664b; 0xc24b8b70; 0xc76c51a3; 0xd192e819; 0xd6990624; 0xf40e3585; 0x106aa070;
   0x19a4c116; 0x1e376c08; 0x2748774c; 0x34b0bcb5; 0x391c0cb3; 0x4ed8aa4a; 0x5b9cca4f; 0x682e6ff3;
   0x748f82ee; 0x78a5636f; 0x84c87814; 0x8cc70208; 0x90befffa; 0xa4506ceb; 0xbef9a3f7; 0xc67178f2].
Definition H256 : list N := [0x6a09e667; 0xbb67ae85; 0x3c6ef372; 0xa54ff53a; 0x510e527f; 0x9b05688c; 0x1f83d9ab; 0x5be0cd19].

(** The message schedule (section 6.2.2, step 1): [w] holds the words in reverse order. *)
Fixpoint schedule (n : nat) (w : list N) : list N :=
  match n with
  | O => rev w
  | S m =>
      let g k := nth k w 0 in
      let s0 x := N.lxor (N.lxor (rotr 7 x) (rotr 18 x)) (N.shiftr x 3) in
      let s1 x := N.lxor (N.lxor (rotr 17 x) (rotr 19 x)) (N.shiftr x 10) in
      schedule m (w32 (s1 (g 1%nat) + g 6%nat + s0 (g 14%nat) + g 15%nat) :: w)
  end.
(** One round (section 6.2.2, step 3). *)
Definition sha_round (h : list N) (kw : N * N) : list N :=
  match h with
  | [a; b; c; d; e; f; g; hh] =>
      let s1 := N.lxor (N.lxor (rotr 6 e) (rotr 11 e)) (rotr 25 e) in
      let ch := N.lxor (N.land e f) (N.land (not32 e) g) in
      let t1 := hh + s1 + ch + fst kw + snd kw in
      let s0 := N.lxor (N.lxor (rotr 2 a) (rotr 13 a)) (rotr 22 a) in
      let maj := N.lxor (N.lxor (N.land a b) (N.land a c)) (N.land b c) in
      [w32 (t1 + s0 + maj); a; b; c; w32 (d + t1); e; f; g]
  | _ => h
  end.
(** One block (section 6.2.2). *)
Definition sha_block (h : list N) (blk : bytes) : list N :=
  let w := schedule 48 (rev (map be_num (chunks 16 4 blk))) in
  map (fun p => w32 (fst p + snd p)) (combine h (fold_left sha_round (combine K256 w) h)).
(** [sha256::Hash::hash], src/v2/map/input.rs:809. *)
Definition real_sha256 (b : bytes) : bytes :=
  let m := pad64 (be_bytes 8) b in
  flat_map (be_bytes 4) (fold_left sha_block (chunks (length m) 64 m) H256).

(** ** RIPEMD-160, for [ripemd160::Hash::hash] at src/v2/map/input.rs:794 *)

(** The word and shift tables of the two lines. *)
Definition RMD_R1 : list nat :=
  [0; 1; 2; 3; 4; 5; 6; 7; 8; 9; 10; 11; 12; 13; 14; 15;
   7; 4; 13; 1; 10; 6; 15; 3; 12; 0; 9; 5; 2; 14; 11; 8;
   3; 10; 14; 4; 9; 15; 8; 1; 2; 7; 0; 6; 13; 11; 5; 12;
   1; 9; 11; 10; 0; 8; 12; 4; 13; 3; 7; 15; 14; 5; 6; 2;
   4; 0; 5; 9; 7; 12; 2; 10; 14; 1; 3; 8; 11; 6; 15; 13]%nat.
Definition RMD_R2 : list nat :=
  [5; 14; 7; 0; 9; 2; 11; 4; 13; 6; 15; 8; 1; 10; 3; 12;
   6; 11; 3; 7; 0; 13; 5; 10; 14; 15; 8; 12; 4; 9; 1; 2;
   15; 5; 1; 3; 7; 14; 6; 9; 11; 8; 12; 2; 10; 0; 4; 13;
   8; 6; 4; 1; 3; 11; 15; 0; 5; 12; 2; 13; 9; 7; 10; 14;
   12; 15; 10; 4; 1; 5; 8; 7; 6; 2; 13; 14; 0; 3; 9; 11]%nat.
Definition RMD_S1 : list N :=
  [11; 14; 15; 12; 5; 8; 7; 9; 11; 13; 14; 15; 6; 7; 9; 8;
   7; 6; 8; 13; 11; 9; 7; 15; 7; 12; 15; 9; 11; 7; 13; 12;
   11; 13; 6; 7; 14; 9; 13; 15; 14; 8; 13; 6; 5; 12; 7; 5;
   11; 12; 14; 15; 14; 15; 9; 8; 9; 14; 5; 6; 8; 6; 5; 12;
   9; 15; 5; 11; 6; 8; 13; 12; 5; 12; 13; 14; 11; 8; 5; 6].
Definition RMD_S2 : list N :=
  [8; 9; 9; 11; 13; 15; 15; 5; 7; 7; 8; 11; 14; 14; 12; 6;
   9; 13; 15; 7; 12; 8; 9; 11; 7; 7; 12; 7; 6; 15; 13; 11;
   9; 7; 15; 11; 8; 6; 6; 14; 12; 13; 5; 14; 13; 13; 7; 5;
   15; 5; 8; 11; 14; 14; 6; 14; 6; 9; 12; 9; 12; 5; 15; 8;
   8; 5; 12; 9; 12; 5; 14; 6; 8; 13; 6; 5; 15; 13; 11; 11].
Definition RMD_K1 : list N := [0; 0x5a827999; 0x6ed9eba1; 0x8f1bbcdc; 0xa953fd4e].
Definition RMD_K2 : list N := [0x50a28be6; 0x5c4dd124; 0x6d703ef3; 0x7a6d76e9; 0].
(** The five functions. *)
Definition rmd_f (j : nat) (x y z : N) : N :=
  match j with
  | 0%nat => N.lxor (N.lxor x y) z
  | 1%nat => N.lor (N.land x y) (N.land (not32 x) z)
  | 2%nat => N.lxor (N.lor x (not32 y)) z
  | 3%nat => N.lor (N.land x z) (N.land y (not32 z))
  | _ => N.lxor x (N.lor y (not32 z))
  end.
(** One step: the function, the constant, the word and the shift. *)
Definition rmd_step (h : list N) (j : nat) (k w s : N) : list N :=
  match h with
  | [a; b; c; d; e] => [e; w32 (rotl s (w32 (a + rmd_f j b c d + w + k)) + e); b; rotl 10 c; d]
  | _ => h
  end.
(** One line; [second] has the functions in reverse order. *)
Definition rmd_line (second : bool) (ks : list N) (rs : list nat) (ss : list N) (w h : list N) : list N :=
  fold_left (fun h n => let j := Nat.div n 16 in
                        rmd_step h (if second then 4 - j else j)%nat (nth j ks 0) (nth (nth n rs 0%nat) w 0) (nth n ss 0))
            (seq 0 80) h.
(** One block. *)
Definition rmd_block (h : list N) (blk : bytes) : list N :=
  let w := map (fun c => be_num (rev c)) (chunks 16 4 blk) in
  match h, rmd_line false RMD_K1 RMD_R1 RMD_S1 w h, rmd_line true RMD_K2 RMD_R2 RMD_S2 w h with
  | [h0; h1; h2; h3; h4], [a; b; c; d; e], [a'; b'; c'; d'; e'] =>
      map w32 [h1 + c + d'; h2 + d + e'; h3 + e + a'; h4 + a + b'; h0 + b + c']
  | _, _, _ => h
  end.
(** [ripemd160::Hash::hash], src/v2/map/input.rs:794. *)
Definition real_ripemd160 (b : bytes) : bytes :=
  let m := pad64 (le_enc 8) b in
  flat_map (le_enc 4) (fold_left rmd_block (chunks (length m) 64 m)
                                 [0x67452301; 0xefcdab89; 0x98badcfe; 0x10325476; 0xc3d2e1f0]).

(** ** Points of secp256k1, for [secp256k1::PublicKey::from_slice] at src/serialize.rs:87-95 *)

(** The field (SEC 2, section 2.4.1). *)
Definition P256 : N := 2 ^ 256 - 4294968273.
(** A product or sum reduced (field arithmetic behind src/serialize.rs:90). *)
Fixpoint fold256 (fuel : nat) (x : N) : N :=
  match fuel with
  | O => x
  | S f => if x <? P256 then x else fold256 f (N.shiftr x 256 * 4294968273 + N.land x (2 ^ 256 - 1))
  end.
Definition fmod (x : N) : N :=
  let y := fold256 4 x in if y <? P256 then y else y - P256.
Definition fmul (x y : N) : N := fmod (x * y).
(** The right hand side of the equation of the curve. *)
Definition curve (x : N) : N := fmod (fmul (fmul x x) x + 7).
(** [x] to the power of a binary number. *)
Fixpoint fpow (x : N) (e : positive) : N :=
  match e with
  | xH => x
  | xO e => let y := fpow x e in fmul y y
  | xI e => let y := fpow x e in fmul (fmul y y) x
  end.
(** The Jacobi symbol, binary algorithm: true means 1. *)
Fixpoint jacobi (fuel : nat) (a n : N) (s : bool) : bool :=
  match fuel with
  | O => false
  | S f =>
      if a =? 0 then (n =? 1) && s
      else if N.even a then
        jacobi f (N.div2 a) n (if (N.land n 7 =? 3) || (N.land n 7 =? 5) then negb s else s)
      else if a <? n then
        jacobi f (n - a) a (let s := if (N.land a 3 =? 3) && (N.land n 3 =? 3) then negb s else s in s)
      else jacobi f (a - n) n s
  end.
(** An x coordinate of a point; there is no point with y = 0. *)
Definition on_curve (x : N) : bool := (x <? P256) && jacobi 1200 (curve x) P256 true.
(** The y coordinate with the parity wanted. *)
Definition curve_y (odd : bool) (x : N) : N :=
  let y := fpow (curve x) (N.succ_pos ((P256 + 1) / 4 - 1)) in
  if Bool.eqb (N.odd y) odd then y else P256 - y.
(** [secp256k1::PublicKey::from_slice], src/serialize.rs:90; 06 and 07 are hybrid keys. *)
Definition real_secp_parse (b : bytes) : option bytes :=
  match b with
  | t :: r =>
      if Nat.eqb (length b) 33 then
        if (beq t x02 || beq t x03) && on_curve (be_num r) then Some b else None
      else if Nat.eqb (length b) 65 then
        let x := be_num (firstn 32 r) in
        let y := be_num (skipn 32 r) in
        let c := if N.odd y then x03 else x02 in
        if (beq t x04 || (beq t x06 && N.even y) || (beq t x07 && N.odd y))
           && (x <? P256) && (y <? P256) && (fmul y y =? curve x)
        then Some (c :: firstn 32 r) else None
      else None
  | [] => None
  end.
(** [secp256k1::PublicKey::serialize_uncompressed], src/serialize.rs:73-79. *)
Definition real_secp_uncompress (c : bytes) : bytes :=
  x04 :: tl c ++ be_bytes 32 (curve_y (beq (hd x00 c) x03) (be_num (tl c))).

(** ** DER signatures, for [secp256k1::ecdsa::Signature::from_der] at src/serialize.rs:116 *)

(** The group order (SEC 2, section 2.4.1). *)
Definition ORDER : N := 0xfffffffffffffffffffffffffffffffebaaedce6af48a03bbfd25e8cd0364141.
(** [secp256k1_der_parse_integer] of libsecp256k1: no negative and no padded numbers, a number out
    of range counts as zero. *)
Definition der_int (b : bytes) : option (N * bytes) :=
  match b with
  | x02 :: l :: r =>
      let n := N.to_nat (b2n l) in
      if (b2n l =? 0) || (128 <=? b2n l) || (blen r <? b2n l) then None
      else
        let v := firstn n r in
        let bad := match v with
                   | [] => true
                   | [a] => 128 <=? b2n a
                   | a :: c :: _ => (beq a x00 && (b2n c <? 128)) || (beq a xff && (128 <=? b2n c)) || (128 <=? b2n a)
                   end in
        if bad then None
        else let x := be_num v in Some (if x <? ORDER then x else 0, skipn n r)
  | _ => None
  end.
(** The DER form of a number ([serialize_der], src/serialize.rs:105). *)
Definition der_num (x : N) : bytes :=
  let n := Nat.max 1 (N.to_nat ((N.size x + 7) / 8)) in
  let v := be_bytes n x in
  let v := if 128 <=? b2n (hd x00 v) then x00 :: v else v in
  x02 :: n2b (blen v) :: v.
(** [secp256k1::ecdsa::Signature::serialize_der], src/serialize.rs:105. *)
Definition der_sig (r s : N) : bytes :=
  let b := der_num r ++ der_num s in x30 :: n2b (blen b) :: b.
(** [secp256k1::ecdsa::Signature::from_der], src/serialize.rs:116, for lengths below 128. *)
Definition real_der_parse (b : bytes) : option bytes :=
  match b with
  | x30 :: l :: r =>
      if (b2n l =? blen r) && (b2n l <? 128) then
        match der_int r with
        | Some (x, r) => match der_int r with Some (y, []) => Some (der_sig x y) | _ => None end
        | None => None
        end
      else None
  | _ => None
  end.

(** ** Tagged hashes (BIP-340, BIP-341), for [TapNodeHash] at src/serialize.rs:364-368 *)

(** A tagged hash. *)
Definition tagged (tag : bytes) (b : bytes) : bytes :=
  let t := real_sha256 tag in real_sha256 (t ++ t ++ b).
(** The compact size of a script length, as in Consensus.v (src/serialize.rs:364). *)
Definition size_prefix (n : N) : bytes :=
  if n <? 253 then [n2b n] else if n <? 65536 then xfd :: le_enc 2 n else xfe :: le_enc 4 n.
(** "TapLeaf" and "TapBranch". *)
Definition TAG_LEAF : bytes := [x54; x61; x70; x4c; x65; x61; x66].
Definition TAG_BRANCH : bytes := [x54; x61; x70; x42; x72; x61; x6e; x63; x68].

(** All of them; the call sites are cited at the fields of [Ext] (Ext.v). *)
Definition real : Ext := {|
  sha256 := real_sha256;
  ripemd160 := real_ripemd160;
  secp_parse := real_secp_parse;
  secp_uncompress := real_secp_uncompress;
  xonly_ok := fun b => on_curve (be_num b);
  der_parse := real_der_parse;
  tap_leaf_hash := fun s v => tagged TAG_LEAF (n2b v :: size_prefix (blen s) ++ s);
  tap_node_hash := fun a b => tagged TAG_BRANCH (if be_num a <=? be_num b then a ++ b else b ++ a)
|}.

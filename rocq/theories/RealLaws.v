(** The laws assumed of the external functions ([ExtLaws], Ext.v) hold of the real ones. *)
From Coq Require Import Znumtheory Zpow_facts.
From Verif Require Import Base Ext RealExt NumTheory.
Local Open Scope N_scope.

(** ** The instance *)

(** An x coordinate of a point: its right hand side is the square of the root computed
    ([secp256k1_ge_set_xo_var] of libsecp256k1, behind src/serialize.rs:90).  [on_curve] of RealExt.v
    decides the same by a Jacobi symbol, which is faster but would need quadratic reciprocity. *)
Definition on_curve_root (x : N) : bool :=
  (x <? P256) && (let y := fpow (curve x) (N.succ_pos ((P256 + 1) / 4 - 1)) in fmul y y =? curve x).
(** [secp256k1::PublicKey::from_slice], src/serialize.rs:90, as in RealExt.v but for [on_curve_root]. *)
Definition root_secp_parse (b : bytes) : option bytes :=
  match b with
  | t :: r =>
      if Nat.eqb (length b) 33 then
        if (beq t x02 || beq t x03) && on_curve_root (be_num r) then Some b else None
      else real_secp_parse b
  | [] => None
  end.
(** All of them; the call sites are cited at the fields of [Ext] (Ext.v). *)
Definition real_root : Ext := {|
  sha256 := real_sha256;
  ripemd160 := real_ripemd160;
  secp_parse := root_secp_parse;
  secp_uncompress := real_secp_uncompress;
  xonly_ok := fun b => on_curve_root (be_num b);
  der_parse := real_der_parse;
  tap_leaf_hash := @tap_leaf_hash real;
  tap_node_hash := @tap_node_hash real
|}.

(** ** Hashes *)

Lemma be_bytes_length n x : length (be_bytes n x) = n.
Proof. unfold be_bytes. now rewrite rev_length, le_enc_length. Qed.

Lemma fold_inv {A B} (Q : A -> Prop) (f : A -> B -> A) l : (forall a b, Q a -> Q (f a b)) -> forall a, Q a -> Q (fold_left f l a).
Proof. intros H. induction l; cbn; auto. Qed.

Lemma flat_map_length {A} (f : A -> bytes) n l : (forall a, length (f a) = n) -> length (flat_map f l) = (length l * n)%nat.
Proof. intros H. induction l; cbn; [reflexivity|]. now rewrite app_length, H, IHl. Qed.

Lemma sha_round_len h kw : length h = 8%nat -> length (sha_round h kw) = 8%nat.
Proof. do 9 (destruct h; try discriminate). reflexivity. Qed.
Lemma sha_block_len h b : length h = 8%nat -> length (sha_block h b) = 8%nat.
Proof.
  intros H. unfold sha_block. rewrite map_length, combine_length, H.
  rewrite (fold_inv (fun h => length h = 8%nat)); [reflexivity| |exact H]. intros; now apply sha_round_len.
Qed.
Lemma real_sha256_len b : length (real_sha256 b) = 32%nat.
Proof.
  unfold real_sha256. cbv zeta. rewrite (flat_map_length _ 4) by (intros; apply be_bytes_length).
  rewrite (fold_inv (fun h => length h = 8%nat)); [reflexivity| |reflexivity]. intros; now apply sha_block_len.
Qed.

Lemma rmd_step_len h j k w s : length h = 5%nat -> length (rmd_step h j k w s) = 5%nat.
Proof. do 6 (destruct h; try discriminate). reflexivity. Qed.
Lemma rmd_block_len h b : length h = 5%nat -> length (rmd_block h b) = 5%nat.
Proof.
  intros H. unfold rmd_block. cbv zeta.
  destruct h as [|h0 [|h1 [|h2 [|h3 [|h4 [|? ?]]]]]]; try discriminate H.
  generalize (rmd_line false RMD_K1 RMD_R1 RMD_S1 (map (fun c => be_num (rev c)) (chunks 16 4 b)) [h0; h1; h2; h3; h4]).
  generalize (rmd_line true RMD_K2 RMD_R2 RMD_S2 (map (fun c => be_num (rev c)) (chunks 16 4 b)) [h0; h1; h2; h3; h4]).
  intros l2 l1. do 6 (destruct l1 as [|? l1]; try reflexivity). do 6 (destruct l2 as [|? l2]; try reflexivity).
Qed.
Lemma real_ripemd160_len b : length (real_ripemd160 b) = 20%nat.
Proof.
  unfold real_ripemd160. cbv zeta. rewrite (flat_map_length _ 4) by (intros; apply le_enc_length).
  rewrite (fold_inv (fun h => length h = 5%nat)); [reflexivity| |reflexivity]. intros; now apply rmd_block_len.
Qed.

(** ** Big endian numbers *)

Lemma be_num_app b x : be_num (b ++ [x]) = 256 * be_num b + b2n x.
Proof. unfold be_num. rewrite fold_left_app. cbn [fold_left]. rewrite N.shiftl_mul_pow2. change (2 ^ 8) with 256. lia. Qed.
Lemma be_num_le b : be_num b = le_dec (rev b).
Proof.
  induction b as [|x b IH] using rev_ind; [reflexivity|]. rewrite be_num_app, rev_app_distr, IH. cbn [rev app le_dec]. lia.
Qed.
Lemma be_num_bytes n x : x < 256 ^ N.of_nat n -> be_num (be_bytes n x) = x.
Proof. intros H. unfold be_bytes. rewrite be_num_le, rev_involutive. now apply le_dec_enc. Qed.
Lemma be_bytes_num b : be_bytes (length b) (be_num b) = b.
Proof. unfold be_bytes. rewrite be_num_le, <- (rev_length b), le_enc_dec. apply rev_involutive. Qed.
Lemma be_num_lt b : be_num b < 256 ^ N.of_nat (length b).
Proof. rewrite be_num_le, <- (rev_length b). apply le_dec_lt. Qed.
Lemma be_num_zero b : be_num (x00 :: b) = be_num b.
Proof. reflexivity. Qed.

Lemma le_enc_last m : forall x, le_enc (S m) x = le_enc m x ++ [n2b ((x / 256 ^ N.of_nat m) mod 256)].
Proof.
  induction m as [|m IH]; intros x.
  - cbn. now rewrite N.div_1_r.
  - change (le_enc (S (S m)) x) with (n2b (x mod 256) :: le_enc (S m) (x / 256)). rewrite IH. cbn [le_enc app].
    rewrite N.div_div, pow256_S by (try apply N.pow_nonzero; lia). reflexivity.
Qed.
Lemma be_bytes_head m x : be_bytes (S m) x = n2b ((x / 256 ^ N.of_nat m) mod 256) :: be_bytes m x.
Proof. unfold be_bytes. now rewrite le_enc_last, rev_app_distr. Qed.

(** ** DER *)

Lemma ORDER_lt : ORDER < 2 ^ 256.
Proof. reflexivity. Qed.

Definition der_len (x : N) : nat := Nat.max 1 (N.to_nat ((N.size x + 7) / 8)).
Lemma der_len_fits x : x < 256 ^ N.of_nat (der_len x).
Proof.
  change 256 with (2 ^ 8). rewrite <- N.pow_mul_r. eapply N.lt_le_trans; [apply N.size_gt|].
  apply N.pow_le_mono_r; [lia|]. unfold der_len. lia.
Qed.
Lemma der_len_minimal x m : der_len x = S (S m) -> 256 ^ N.of_nat (S m) <= x.
Proof.
  intros H. unfold der_len in H. destruct (N.eq_dec x 0) as [->|Hx]; [discriminate|].
  pose proof (N.size_le x) as Hs. rewrite N.succ_double_spec in Hs.
  assert (B : N.size x = N.succ (N.size x - 1)) by lia. rewrite B, N.pow_succ_r' in Hs.
  change 256 with (2 ^ 8). rewrite <- N.pow_mul_r.
  apply N.le_trans with (2 ^ (N.size x - 1)); [|lia]. apply N.pow_le_mono_r; lia.
Qed.
Lemma der_len_max x : x < ORDER -> (der_len x <= 32)%nat.
Proof.
  intros H. unfold der_len. destruct (N.eq_dec x 0) as [->|Hx]; [cbn; lia|].
  rewrite N.size_log2 by exact Hx. assert (N.log2 x < 256); [|lia].
  apply N.log2_lt_pow2; [lia|]. pose proof ORDER_lt. lia.
Qed.

Lemma der_num_len x : x < ORDER -> (3 <= length (der_num x) <= 35)%nat.
Proof.
  intros H. unfold der_num. cbv zeta. fold (der_len x). pose proof (der_len_max x H).
  assert (1 <= der_len x)%nat by (unfold der_len; lia).
  destruct (128 <=? _); cbn [length]; rewrite be_bytes_length; lia.
Qed.

Lemma der_int_num x r : x < ORDER -> der_int (der_num x ++ r) = Some (x, r).
Proof.
  intros H. unfold der_num. cbv zeta. fold (der_len x).
  set (v := if 128 <=? b2n (hd x00 (be_bytes (der_len x) x)) then x00 :: be_bytes (der_len x) x else be_bytes (der_len x) x).
  pose proof (der_len_max x H) as M. pose proof (der_len_fits x) as F.
  assert (V : be_num v = x) by (unfold v; destruct (128 <=? _); rewrite ?be_num_zero; now apply be_num_bytes).
  assert (L : (1 <= length v <= 33)%nat).
  { assert (1 <= der_len x)%nat by (unfold der_len; lia). unfold v. destruct (128 <=? _); cbn [length]; rewrite be_bytes_length; lia. }
  assert (Bad : match v with
                | [] => true
                | [a] => 128 <=? b2n a
                | a :: c :: _ => (beq a x00 && (b2n c <? 128)) || (beq a xff && (128 <=? b2n c)) || (128 <=? b2n a)
                end = false).
  { unfold v. pose proof (der_len_minimal x) as Mi. destruct (der_len x) as [|m] eqn:E; [exfalso; unfold der_len in E; lia|].
    rewrite be_bytes_head in *. cbn [hd]. set (a := n2b ((x / 256 ^ N.of_nat m) mod 256)) in *.
    destruct (128 <=? b2n a) eqn:A.
    - change (beq x00 x00) with true. change (beq x00 xff) with false. change (128 <=? b2n x00) with false. cbn [andb orb].
      destruct (b2n a <? 128) eqn:Q; [lia|reflexivity].
    - destruct m as [|m]; [exact A|]. rewrite be_bytes_head in *. rewrite A.
      assert (Z0 : beq a x00 = false).
      { destruct (beq a x00) eqn:Q; [|reflexivity]. exfalso. apply beq_eq in Q.
        specialize (Mi m eq_refl). rewrite pow256_S in F.
        assert (D : 1 <= x / 256 ^ N.of_nat (S m)) by (apply N.div_le_lower_bound; [apply N.pow_nonzero; lia|lia]).
        assert (D' : x / 256 ^ N.of_nat (S m) < 256) by (apply N.div_lt_upper_bound; [apply N.pow_nonzero; lia|lia]).
        assert (b2n a = x / 256 ^ N.of_nat (S m)) by (unfold a; rewrite N.mod_small by lia; apply b2n_n2b; lia).
        rewrite Q in H0. change (b2n x00) with 0 in H0. lia. }
      rewrite Z0. cbn [andb orb]. destruct (beq a xff) eqn:Q; [|reflexivity]. exfalso. apply beq_eq in Q. rewrite Q in A. discriminate A. }
  clearbody v. cbn [app]. unfold der_int.
  assert (NB : b2n (n2b (blen v)) = blen v) by (apply b2n_n2b; unfold blen; lia).
  rewrite NB. replace ((blen v =? 0) || (128 <=? blen v) || (blen (v ++ r) <? blen v)) with false
    by (unfold blen; rewrite app_length; lia).
  replace (N.to_nat (blen v)) with (length v) by (unfold blen; lia).
  rewrite firstn_app, firstn_all, Nat.sub_diag, firstn_O, app_nil_r, skipn_app, skipn_all, Nat.sub_diag, skipn_O. cbn [app].
  rewrite Bad, V. assert (x <? ORDER = true) as -> by lia. reflexivity.
Qed.

Lemma der_int_lt b x r : der_int b = Some (x, r) -> x < ORDER.
Proof.
  unfold der_int. destruct b as [|t [|l b]]; try discriminate; destruct t; try discriminate.
  destruct (_ || _ || _); [discriminate|]. cbv zeta. set (v := firstn _ _). clearbody v. destruct v as [|a [|c v]]; [discriminate| |];
    (match goal with |- (if ?b then None else _) = _ -> _ => destruct b; [discriminate|] end);
  intros E; injection E as <- _; destruct (_ <? ORDER) eqn:C; [lia|reflexivity|lia|reflexivity].
Qed.

Lemma real_der_parse_sig b c : real_der_parse b = Some c -> exists x y, x < ORDER /\ y < ORDER /\ c = der_sig x y.
Proof.
  unfold real_der_parse. destruct b as [|t [|l b]]; try discriminate; destruct t; try discriminate.
  destruct (_ && _); [|discriminate]. destruct (der_int b) as [[x r]|] eqn:E1; [|discriminate].
  destruct (der_int r) as [[y [|? ?]]|] eqn:E2; try discriminate. intros E. injection E as <-.
  exists x, y. split; [now apply der_int_lt in E1|]. split; [now apply der_int_lt in E2|reflexivity].
Qed.
Lemma real_der_parse_len b c : real_der_parse b = Some c -> (length c <= 72)%nat.
Proof.
  intros (x & y & Hx & Hy & ->)%real_der_parse_sig. unfold der_sig. cbv zeta. cbn [length].
  rewrite app_length. pose proof (der_num_len x Hx). pose proof (der_num_len y Hy). lia.
Qed.
Lemma real_der_parse_idem b c : real_der_parse b = Some c -> real_der_parse c = Some c.
Proof.
  intros (x & y & Hx & Hy & ->)%real_der_parse_sig.
  pose proof (der_num_len x Hx). pose proof (der_num_len y Hy).
  assert (B : blen (der_num x ++ der_num y) < 128) by (unfold blen; rewrite app_length; lia).
  unfold der_sig at 1. cbv zeta. unfold real_der_parse. rewrite b2n_n2b by lia.
  rewrite N.eqb_refl. assert (blen (der_num x ++ der_num y) <? 128 = true) as -> by lia. cbn [andb].
  rewrite der_int_num by exact Hx. rewrite <- (app_nil_r (der_num y)), der_int_num by exact Hy. rewrite ?app_nil_r. reflexivity.
Qed.

(** ** The field *)

Definition B256 : N := 115792089237316195423570985008687907853269984665640564039457584007913129639936.
Definition K256f : N := 4294968273.
Lemma P256_eq : P256 = B256 - K256f.
Proof. reflexivity. Qed.
Lemma P256_p : Z.of_N P256 = p256.
Proof. reflexivity. Qed.

Definition fold_step (x : N) : N := N.shiftr x 256 * 4294968273 + N.land x (2 ^ 256 - 1).
Lemma fold_step_eq x : fold_step x = (x / B256) * K256f + x mod B256.
Proof.
  unfold fold_step. rewrite N.shiftr_div_pow2. replace (2 ^ 256 - 1) with (N.ones 256) by reflexivity.
  rewrite N.land_ones. reflexivity.
Qed.
Lemma fold_step_mod x : (fold_step x) mod P256 = x mod P256.
Proof.
  rewrite fold_step_eq, P256_eq. rewrite (N.div_mod x B256) at 3 by discriminate.
  set (q := x / B256). set (r := x mod B256).
  replace (B256 * q + r) with (q * K256f + r + q * (B256 - K256f)) by (change (B256 - K256f) with P256; unfold P256, B256, K256f; lia).
  now rewrite N.mod_add by discriminate.
Qed.
Lemma fold256_S f x : fold256 (S f) x = if x <? P256 then x else fold256 f (fold_step x).
Proof. reflexivity. Qed.
Lemma fold256_mod f : forall x, (fold256 f x) mod P256 = x mod P256.
Proof.
  induction f as [|f IH]; intros x; [reflexivity|]. rewrite fold256_S. destruct (_ <? _); [reflexivity|].
  now rewrite IH, fold_step_mod.
Qed.
Lemma step_bound u x : x < u * B256 -> fold_step x < u * K256f + B256.
Proof.
  intros H. rewrite fold_step_eq. assert (x / B256 < u) by (apply N.div_lt_upper_bound; [discriminate|lia]).
  assert (x mod B256 < B256) by (apply N.mod_lt; discriminate). unfold K256f. lia.
Qed.
Lemma step_bound_2 x : x < B256 + (2 * K256f + 1) * K256f -> fold_step x < B256.
Proof.
  intros H. rewrite fold_step_eq. destruct (x <? B256) eqn:C.
  - rewrite N.div_small, N.mod_small by lia. lia.
  - replace x with ((x - B256) + 1 * B256) by lia. rewrite N.div_add, N.mod_add by discriminate.
    assert (x - B256 < (2 * K256f + 1) * K256f) by lia.
    assert (x - B256 < B256) by (apply N.lt_trans with ((2 * K256f + 1) * K256f); [lia|reflexivity]).
    rewrite N.div_small, N.mod_small by assumption.
    apply N.lt_le_trans with ((2 * K256f + 1) * K256f + K256f); [lia|discriminate].
Qed.
Lemma P256_B256 : P256 < B256.
Proof. reflexivity. Qed.
Lemma fold256_bound x : x < 2 * B256 * B256 -> fold256 4 x < B256.
Proof.
  intros H. pose proof P256_B256. rewrite fold256_S. destruct (x <? P256) eqn:C0; [lia|]. clear C0.
  apply step_bound in H. set (a := fold_step x) in *. clearbody a. clear x.
  assert (Ha : a < (2 * K256f + 1) * B256) by lia. apply step_bound in Ha. clear H.
  rewrite fold256_S. destruct (a <? P256) eqn:C1; [lia|]. clear C1.
  set (b := fold_step a) in *. clearbody b. clear a.
  rewrite fold256_S. destruct (b <? P256) eqn:C2; [lia|]. clear C2.
  assert (Hb : fold_step b < B256) by (apply step_bound_2; lia). set (c := fold_step b) in *. clearbody c.
  rewrite fold256_S. destruct (c <? P256) eqn:C3; [lia|]. clear C3.
  apply step_bound_2. unfold K256f. lia.
Qed.
Lemma fmod_eq x : x < 2 * B256 * B256 -> fmod x = x mod P256.
Proof.
  intros H. unfold fmod. cbv zeta. pose proof (fold256_bound x H) as B. rewrite <- (fold256_mod 4 x).
  set (y := fold256 4 x) in *. clearbody y. destruct (y <? P256) eqn:C; [rewrite N.mod_small; lia|].
  assert (y - P256 < P256) by (assert (B256 < 2 * P256) by reflexivity; lia).
  replace y with ((y - P256) + 1 * P256) at 2 by lia. rewrite N.mod_add by discriminate. now rewrite N.mod_small.
Qed.
Lemma fmul_eq x y : x < B256 -> y < B256 -> fmul x y = (x * y) mod P256.
Proof.
  intros Hx Hy. unfold fmul. apply fmod_eq.
  assert (x * y <= B256 * B256) by (apply N.mul_le_mono; lia). assert (0 < B256 * B256) by reflexivity. lia.
Qed.
Lemma mod_B256 x : x mod P256 < B256.
Proof. apply N.lt_trans with P256; [apply N.mod_lt; discriminate|reflexivity]. Qed.
Lemma curve_eq x : x < P256 -> curve x = (x * x * x + 7) mod P256.
Proof.
  intros Hx. pose proof P256_B256. unfold curve. rewrite !fmul_eq, fmod_eq; try apply mod_B256; try lia.
  - rewrite N.mul_mod_idemp_l, N.add_mod_idemp_l by discriminate. reflexivity.
  - pose proof (mod_B256 ((x * x) mod P256 * x)). assert (B256 + 7 < 2 * B256 * B256) by reflexivity. lia.
  - rewrite fmul_eq by lia. apply mod_B256.
Qed.
Lemma curve_lt x : x < P256 -> curve x < P256.
Proof. intros H. rewrite curve_eq by exact H. apply N.mod_lt. discriminate. Qed.

Local Open Scope Z_scope.
Notation zN := Z.of_N (only parsing).
Lemma zmod x : zN (x mod P256)%N = zN x mod p256.
Proof. rewrite N2Z.inj_mod, P256_p. reflexivity. Qed.
Lemma zfmul x y : (x < B256)%N -> (y < B256)%N -> zN (fmul x y) = (zN x * zN y) mod p256.
Proof. intros. now rewrite fmul_eq, zmod, N2Z.inj_mul. Qed.
Lemma fpow_ok x e : (x < P256)%N -> zN (fpow x e) = (zN x ^ Z.pos e) mod p256 /\ (fpow x e < P256)%N.
Proof.
  intros Hx. pose proof P256_B256 as PB.
  assert (L : forall a b, (a < P256)%N -> (b < P256)%N -> (fmul a b < P256)%N).
  { intros. rewrite fmul_eq by lia. apply N.mod_lt. discriminate. }
  induction e as [e [IH1 IH2]|e [IH1 IH2]|]; cbn [fpow]; cbv zeta.
  - split; [|auto]. rewrite !zfmul by (auto; pose proof (L _ _ IH2 IH2); lia). rewrite IH1.
    rewrite <- Z.mul_mod, Z.mul_mod_idemp_l by discriminate. rewrite Pos2Z.inj_xI.
    rewrite Z.pow_add_r, Z.pow_1_r, (Z.mul_comm 2), Z.pow_mul_r, Z.pow_2_r by lia. reflexivity.
  - split; [|auto]. rewrite !zfmul by lia. rewrite IH1.
    rewrite <- Z.mul_mod by discriminate. rewrite Pos2Z.inj_xO.
    rewrite (Z.mul_comm 2), Z.pow_mul_r, Z.pow_2_r by lia. reflexivity.
  - split; [|exact Hx]. rewrite Z.pow_1_r, <- P256_p, Z.mod_small; lia.
Qed.

(** The root computed is a root whenever there is one. *)
Lemma root_exp c y : 0 <= c < p256 -> (y * y) mod p256 = c ->
  (c ^ ((p256 + 1) / 4) * c ^ ((p256 + 1) / 4)) mod p256 = c.
Proof.
  intros Hc Hy. pose proof prime_p256 as P.
  assert (Q : (p256 + 1) / 4 + (p256 + 1) / 4 = (p256 + 1) / 2) by reflexivity.
  assert (R : (p256 + 1) / 2 * 2 = (p256 - 1) + 2) by reflexivity.
  assert (Hk : 0 < (p256 + 1) / 4) by reflexivity. assert (Hk2 : 0 < (p256 + 1) / 2) by reflexivity.
  rewrite <- Z.pow_add_r, Q by lia. assert (Hp : 1 < p256) by reflexivity.
  set (p := p256) in *. clearbody p. set (k := (p + 1) / 2) in *. clearbody k.
  destruct (Z.eq_dec (y mod p) 0) as [E|E].
  - rewrite Z.mul_mod, E, Z.mul_0_l, Z.mod_0_l in Hy by lia. subst c. rewrite Z.pow_0_l, Z.mod_0_l; lia.
  - rewrite <- Hy at 1. rewrite <- Zpower_mod by lia. rewrite <- Z.pow_2_r, <- Z.pow_mul_r, (Z.mul_comm 2), R, Z.pow_add_r by lia.
    rewrite Z.mul_mod, fermat, Z.mul_1_l, Z.mod_mod, Z.pow_2_r by (auto; lia). exact Hy.
Qed.

(** Two roots differ by their sign. *)
Lemma two_roots y s : 0 <= y < p256 -> 0 <= s < p256 -> (y * y) mod p256 = (s * s) mod p256 -> y = s \/ y + s = p256.
Proof.
  intros Hy Hs E. pose proof prime_p256 as P. set (p := p256) in *. clearbody p.
  assert (D : ((y - s) * (y + s)) mod p = 0).
  { replace ((y - s) * (y + s)) with (y * y - s * s) by ring. rewrite Zminus_mod, E, Z.sub_diag. apply Z.mod_0_l. lia. }
  apply (prime_mult_mod p) in D as [D|D]; auto; apply Zmod_divide in D as [k Hk]; try lia.
  - left. assert (k = 0) by nia. lia.
  - assert (k = 0 \/ k = 1) as [->| ->] by nia; [left|right]; lia.
Qed.

Local Close Scope Z_scope.

(** ** Keys *)

Definition root_of (x : N) : N := fpow (curve x) (N.succ_pos ((P256 + 1) / 4 - 1)).
Lemma curve_y_eq odd x : curve_y odd x = if Bool.eqb (N.odd (root_of x)) odd then root_of x else P256 - root_of x.
Proof. unfold curve_y, root_of. reflexivity. Qed.
Lemma on_curve_root_eq x : on_curve_root x = (x <? P256) && (fmul (root_of x) (root_of x) =? curve x).
Proof. unfold on_curve_root, root_of. reflexivity. Qed.
Lemma root_of_ok x : x < P256 -> Z.of_N (root_of x) = (Z.of_N (curve x) ^ ((p256 + 1) / 4) mod p256)%Z /\ root_of x < P256.
Proof.
  intros H. unfold root_of. destruct (fpow_ok (curve x) (N.succ_pos ((P256 + 1) / 4 - 1)) (curve_lt x H)) as [E L].
  split; [|exact L]. rewrite E. reflexivity.
Qed.

Lemma point_on_curve x y : x < P256 -> y < P256 -> fmul y y = curve x -> fmul (root_of x) (root_of x) = curve x.
Proof.
  intros Hx Hy E. pose proof P256_B256. destruct (root_of_ok x Hx) as [R L]. apply N2Z.inj.
  rewrite zfmul, R by lia. rewrite <- Z.mul_mod by discriminate.
  apply root_exp with (y := Z.of_N y).
  - pose proof (curve_lt x Hx). rewrite <- P256_p. lia.
  - rewrite <- zfmul by lia. now rewrite E.
Qed.

Lemma curve_not_zero x : x < P256 -> curve x <> 0.
Proof.
  intros Hx E. apply (no_root (Z.of_N x)). rewrite curve_eq in E by exact Hx.
  apply (f_equal Z.of_N) in E. rewrite zmod in E. change (Z.of_N 0) with 0%Z in E. etransitivity; [|exact E]. f_equal. lia.
Qed.

Lemma neg_square p s : (p <> 0 -> ((p - s) * (p - s)) mod p = (s * s) mod p)%Z.
Proof.
  intros H. replace ((p - s) * (p - s))%Z with (s * s + (p - 2 * s) * p)%Z by ring. now apply Z.mod_add.
Qed.
Lemma odd_neg s : s < P256 -> N.odd (P256 - s) = negb (N.odd s).
Proof. intros H. rewrite N.odd_sub by lia. change (N.odd P256) with true. now destruct (N.odd s). Qed.
Lemma neg_ok s c : s < P256 -> fmul s s = c -> c <> 0 -> P256 - s < P256 /\ fmul (P256 - s) (P256 - s) = c.
Proof.
  intros L <- Hc. pose proof P256_B256.
  assert (S0 : s <> 0) by (intros ->; now apply Hc).
  assert (L' : P256 - s < P256) by lia. split; [exact L'|].
  apply N2Z.inj. rewrite !zfmul by lia. rewrite N2Z.inj_sub, P256_p by lia. now apply neg_square.
Qed.
Lemma curve_y_ok odd x : x < P256 -> fmul (root_of x) (root_of x) = curve x ->
  curve_y odd x < P256 /\ fmul (curve_y odd x) (curve_y odd x) = curve x /\ N.odd (curve_y odd x) = odd.
Proof.
  intros Hx E. destruct (root_of_ok x Hx) as [_ L]. rewrite curve_y_eq.
  destruct (Bool.eqb (N.odd (root_of x)) odd) eqn:C.
  - apply Bool.eqb_prop in C. exact (conj L (conj E C)).
  - destruct (neg_ok _ _ L E (curve_not_zero x Hx)) as [A B]. refine (conj A (conj B _)).
    rewrite odd_neg by exact L. destruct (N.odd (root_of x)), odd; try discriminate C; reflexivity.
Qed.

Lemma curve_y_unique x y : x < P256 -> y < P256 -> fmul y y = curve x -> y = curve_y (N.odd y) x.
Proof.
  intros Hx Hy E. pose proof P256_B256. pose proof (point_on_curve x y Hx Hy E) as R.
  destruct (curve_y_ok (N.odd y) x Hx R) as (L & E' & O). set (s := curve_y (N.odd y) x) in *. clearbody s.
  destruct (two_roots (Z.of_N y) (Z.of_N s)) as [D|D]; try (rewrite <- P256_p; lia); [|now apply N2Z.inj|].
  - rewrite <- !zfmul by lia. now rewrite E, E'.
  - exfalso. rewrite <- P256_p in D. assert (y = P256 - s) as -> by lia.
    rewrite odd_neg in O by exact L. destruct (N.odd s); discriminate O.
Qed.

Lemma on_curve_root_iff x : on_curve_root x = true <-> x < P256 /\ fmul (root_of x) (root_of x) = curve x.
Proof. rewrite on_curve_root_eq, andb_true_iff, N.eqb_eq, N.ltb_lt. reflexivity. Qed.

Lemma root_parse_cases b c : root_secp_parse b = Some c ->
  (exists t r, b = t :: r /\ length r = 32%nat /\ (t = x02 \/ t = x03) /\ on_curve_root (be_num r) = true /\ c = b) \/
  (exists t xb yb, b = t :: xb ++ yb /\ length xb = 32%nat /\ length yb = 32%nat /\ be_num xb < P256 /\ be_num yb < P256 /\
     fmul (be_num yb) (be_num yb) = curve (be_num xb) /\ c = (if N.odd (be_num yb) then x03 else x02) :: xb /\
     (t = x04 \/ t = if N.odd (be_num yb) then x07 else x06)).
Proof.
  unfold root_secp_parse. destruct b as [|t r]; [discriminate|]. destruct (Nat.eqb (length (t :: r)) 33) eqn:L.
  - destruct (_ && _) eqn:C; [|discriminate]. intros E. injection E as <-. left. exists t, r.
    apply andb_prop in C as [C1 C2]. apply Nat.eqb_eq in L. cbn [length] in L.
    split; [reflexivity|]. split; [lia|]. split; [|auto].
    apply orb_prop in C1 as [C1|C1]; apply beq_eq in C1; auto.
  - unfold real_secp_parse. rewrite L. destruct (Nat.eqb (length (t :: r)) 65) eqn:L2; [|discriminate]. cbv zeta.
    destruct (_ && _) eqn:C; [|discriminate]. intros E. injection E as <-. right.
    apply Nat.eqb_eq in L2. cbn [length] in L2.
    apply andb_prop in C as [C C4]. apply andb_prop in C as [C C3]. apply andb_prop in C as [C1 C2].
    exists t, (firstn 32 r), (skipn 32 r). rewrite firstn_skipn, firstn_length, skipn_length.
    split; [reflexivity|]. split; [lia|]. split; [lia|]. split; [lia|]. split; [lia|]. split; [now apply N.eqb_eq|]. split; [reflexivity|].
    rewrite <- N.negb_odd in C1. destruct (N.odd (be_num (skipn 32 r))); rewrite ?andb_true_r, ?andb_false_r, ?orb_false_r in C1; cbn [negb andb] in C1;
      rewrite ?andb_true_r, ?andb_false_r, ?orb_false_r in C1;
      apply orb_prop in C1 as [C1|C1]; apply beq_eq in C1; auto.
Qed.

Lemma point_parses t xb yb : (t = x04 \/ t = if N.odd (be_num yb) then x07 else x06) -> length xb = 32%nat -> length yb = 32%nat -> be_num xb < P256 -> be_num yb < P256 ->
  fmul (be_num yb) (be_num yb) = curve (be_num xb) ->
  root_secp_parse (t :: xb ++ yb) = Some ((if N.odd (be_num yb) then x03 else x02) :: xb).
Proof.
  intros Ht Lx Ly Hx Hy E. unfold root_secp_parse, real_secp_parse.
  assert (Len : length (t :: xb ++ yb) = 65%nat) by (cbn [length]; rewrite app_length; lia).
  rewrite Len. cbn [Nat.eqb]. cbv zeta.
  assert (F : firstn 32 (xb ++ yb) = xb) by (rewrite firstn_app, Lx, Nat.sub_diag, firstn_O, app_nil_r, <- Lx; apply firstn_all).
  assert (G : skipn 32 (xb ++ yb) = yb) by (rewrite skipn_app, Lx, Nat.sub_diag, skipn_O, <- Lx, skipn_all; reflexivity).
  rewrite F, G, E, N.eqb_refl.
  assert (beq t x04 || beq t x06 && N.even (be_num yb) || beq t x07 && N.odd (be_num yb) = true) as ->
    by (rewrite <- N.negb_odd; destruct Ht as [-> | ->]; [reflexivity|]; destruct (N.odd (be_num yb)); reflexivity).
  assert (be_num xb <? P256 = true) as -> by lia. assert (be_num yb <? P256 = true) as -> by lia. reflexivity.
Qed.

Lemma compressed_parses t r : (t = x02 \/ t = x03) -> length r = 32%nat -> on_curve_root (be_num r) = true ->
  root_secp_parse (t :: r) = Some (t :: r).
Proof.
  intros Ht L H. unfold root_secp_parse. cbn [length]. rewrite L. cbn [Nat.eqb]. rewrite H.
  destruct Ht as [-> | ->]; reflexivity.
Qed.

Lemma root_parse_len b c : root_secp_parse b = Some c -> length c = 33%nat.
Proof.
  intros [(t & r & -> & L & _ & _ & ->)|(t & xb & yb & _ & L & _ & _ & _ & _ & -> & _)]%root_parse_cases; cbn [length]; lia.
Qed.
Lemma root_parse_idem b c : root_secp_parse b = Some c -> root_secp_parse c = Some c.
Proof.
  intros H. destruct (root_parse_cases b c H) as [(t & r & _ & _ & _ & _ & ->)|(t & xb & yb & _ & L & _ & Hx & Hy & E & -> & _)]; [exact H|].
  apply compressed_parses; [destruct (N.odd _); auto|exact L|]. apply on_curve_root_iff. split; [exact Hx|].
  now apply (point_on_curve _ (be_num yb)).
Qed.
Lemma root_parse_domain b c : root_secp_parse b = Some c -> length b = 33%nat \/ length b = 65%nat.
Proof.
  intros [(t & r & -> & L & _)|(t & xb & yb & -> & Lx & Ly & _)]%root_parse_cases; cbn [length]; rewrite ?app_length; lia.
Qed.
Lemma root_parse_33 b c : root_secp_parse b = Some c -> length b = 33%nat -> c = b.
Proof.
  intros [(t & r & _ & _ & _ & _ & ->)|(t & xb & yb & -> & Lx & Ly & _)]%root_parse_cases; [auto|].
  cbn [length]. rewrite app_length. lia.
Qed.

Lemma self_key c : root_secp_parse c = Some c ->
  exists t r, c = t :: r /\ length r = 32%nat /\ (t = x02 \/ t = x03) /\ on_curve_root (be_num r) = true.
Proof.
  intros H. destruct (root_parse_cases c c H) as [(t & r & -> & L & Ht & O & _)|(t & xb & yb & E & Lx & Ly & _)]; [exists t, r; auto|].
  apply root_parse_len in H. subst c. cbn [length] in H. rewrite app_length in H. lia.
Qed.
Lemma pow_32 : 256 ^ N.of_nat 32 = B256.
Proof. reflexivity. Qed.

Lemma root_uncompress_parse c : root_secp_parse c = Some c -> root_secp_parse (real_secp_uncompress c) = Some c.
Proof.
  intros (t & r & -> & L & Ht & O)%self_key. apply on_curve_root_iff in O as [Hx R]. pose proof P256_B256.
  unfold real_secp_uncompress. cbn [hd tl].
  destruct (curve_y_ok (beq t x03) (be_num r) Hx R) as (Hy & E & P). set (y := curve_y (beq t x03) (be_num r)) in *. clearbody y.
  assert (B : be_num (be_bytes 32 y) = y) by (apply be_num_bytes; rewrite pow_32; lia).
  rewrite point_parses; rewrite ?B; auto using be_bytes_length. rewrite P. destruct Ht as [-> | ->]; reflexivity.
Qed.
Lemma root_uncompress_unique b c : root_secp_parse b = Some c -> length b = 65%nat -> hd x00 b = x04 -> b = real_secp_uncompress c.
Proof.
  intros [(t & r & -> & L & _)|(t & xb & yb & -> & Lx & Ly & Hx & Hy & E & -> & _)]%root_parse_cases;
    [cbn [length]; lia|]. cbn [hd]. intros _ ->. unfold real_secp_uncompress. cbn [hd tl].
  replace (beq (if N.odd (be_num yb) then x03 else x02) x03) with (N.odd (be_num yb)) by now destruct (N.odd _).
  rewrite <- (curve_y_unique _ _ Hx Hy E). rewrite <- Ly at 1. now rewrite be_bytes_num.
Qed.

Lemma root_uncompress_len c : root_secp_parse c = Some c -> length (real_secp_uncompress c) = 65%nat.
Proof.
  intros (t & r & -> & L & _)%self_key. unfold real_secp_uncompress. cbn [hd tl length].
  rewrite app_length, be_bytes_length. lia.
Qed.

Theorem real_root_laws : ExtLaws real_root.
Proof.
  exact (@Build_ExtLaws real_root real_sha256_len real_ripemd160_len root_parse_len root_parse_idem root_parse_domain
           root_parse_33 root_uncompress_len (fun _ _ => eq_refl) root_uncompress_parse root_uncompress_unique
           real_der_parse_idem real_der_parse_len (fun _ _ => real_sha256_len _) (fun _ _ => real_sha256_len _)).
Qed.

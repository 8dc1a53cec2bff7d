(** C149: the functions of the dependencies have the properties assumed of them. *)
From Coq Require Import ZArith Znumtheory.
From Verif Require Import Base Ext RealExt NumTheory RealLaws RealSign SpecReal Serialize V2Sign V2Global V2Input V2Output V2Psbt SpecPsbt V2PsbtFacts
  V0Psbt SpecPsbt0 V0PsbtFacts PropertiesV2Codec PropertiesV0Codec.
Local Open Scope N_scope.

Lemma number_num b : number b = Z.of_N (be_num b).
Proof.
  enough (H : forall b a, Z.of_N (fold_left (fun a x => N.shiftl a 8 + b2n x) b a) = (Z.of_N a * 256 ^ Z.of_nat (length b) + number b)%Z)
    by (unfold be_num; rewrite H; reflexivity).
  clear b. induction b as [|x b IH]; intros a; cbn [fold_left number length].
  - rewrite Z.pow_0_r. lia.
  - rewrite IH, N.shiftl_mul_pow2. change (2 ^ 8) with 256. rewrite N2Z.inj_add, N2Z.inj_mul, Nat2Z.inj_succ, Z.pow_succ_r by lia.
    change (Z.of_N 256) with 256%Z. ring.
Qed.
Lemma octets_num z b : octets z b -> be_num b = Z.to_N z /\ (0 <= z)%Z.
Proof. intros [_ <-]. rewrite number_num. lia. Qed.

Lemma point_iff x y : point (Z.of_N x) (Z.of_N y) <-> x < P256 /\ y < P256 /\ fmul y y = curve x.
Proof.
  pose proof P256_B256 as PB. unfold point. change field with p256. rewrite <- P256_p.
  assert (E : x < P256 -> y < P256 -> (((Z.of_N y ^ 2 - (Z.of_N x ^ 3 + 7)) mod Z.of_N P256)%Z = 0%Z <-> fmul y y = curve x)).
  { intros Hx Hy. rewrite curve_eq, fmul_eq by lia.
    replace (Z.of_N y ^ 2)%Z with (Z.of_N (y * y)) by lia. replace (Z.of_N x ^ 3 + 7)%Z with (Z.of_N (x * x * x + 7)) by lia.
    set (u := y * y). set (v := x * x * x + 7). rewrite P256_p. clearbody u v. split; intros H.
    - apply N2Z.inj. rewrite !zmod. apply Zmod_divide in H as [k Hk]; [|discriminate].
      replace (Z.of_N u) with (Z.of_N v + k * p256)%Z by lia. now rewrite Z.mod_add by discriminate.
    - apply (f_equal Z.of_N) in H. rewrite !zmod in H. rewrite Zminus_mod, H, Z.sub_diag. reflexivity. }
  split.
  - intros (A & B & D). assert (x < P256) by lia. assert (y < P256) by lia. split; [auto|]. split; [auto|]. now apply E.
  - intros (A & B & D). split; [lia|]. split; [lia|]. now apply E.
Qed.

(** The field is one. *)
Theorem C149_field : prime field.
Proof. exact prime_p256. Qed.
Print Assumptions C149_field.

(** A string is a public key exactly when it is one of the forms of a point of the curve, and what
    is kept of it is the compressed form. *)
Theorem C149_keys : forall b c, @secp_parse real_root b = Some c <->
  exists x y, point x y /\ compressed x y c /\ (compressed x y b \/ uncompressed x y b \/ hybrid x y b).
Proof.
  assert (PB := P256_B256). assert (EO : forall n, Z.even (Z.of_N n) = negb (N.odd n)).
  { intros n. rewrite N.negb_odd. destruct n as [|[]]; reflexivity. }
  intros b c. change (@secp_parse real_root b) with (root_secp_parse b). split.
  - intros [(t & r & -> & L & Ht & O & ->)|(t & xb & yb & -> & Lx & Ly & Hx & Hy & E & -> & Ht)]%root_parse_cases.
    + apply on_curve_root_iff in O as [Hx R]. destruct (curve_y_ok (beq t x03) (be_num r) Hx R) as (Hy & E & P).
      set (y := curve_y (beq t x03) (be_num r)) in *. clearbody y.
      exists (Z.of_N (be_num r)), (Z.of_N y). split; [exact (proj2 (point_iff _ _) (conj Hx (conj Hy E)))|].
      assert (K : compressed (Z.of_N (be_num r)) (Z.of_N y) (t :: r)).
      { exists r. split; [split; [exact L|apply number_num]|]. rewrite EO, P. destruct Ht as [-> | ->]; reflexivity. }
      auto.
    + exists (Z.of_N (be_num xb)), (Z.of_N (be_num yb)). split; [exact (proj2 (point_iff _ _) (conj Hx (conj Hy E)))|].
      assert (Ox : octets (Z.of_N (be_num xb)) xb) by (split; [exact Lx|apply number_num]).
      assert (Oy : octets (Z.of_N (be_num yb)) yb) by (split; [exact Ly|apply number_num]). split.
      * exists xb. split; [exact Ox|]. rewrite EO. now destruct (N.odd _).
      * right. destruct Ht as [-> | ->]; [left|right]; exists xb, yb; (split; [exact Ox|]); (split; [exact Oy|]); [reflexivity|].
        rewrite EO. now destruct (N.odd _).
  - intros (x & y & P & (xb & Ox & ->) & H). destruct (octets_num _ _ Ox) as [Ex Px].
    assert (Py : (0 <= y)%Z) by (destruct P as (_ & [? _] & _); auto).
    rewrite <- (Z2N.id x), <- (Z2N.id y) in P by auto. apply point_iff in P as (Hx & Hy & E).
    assert (Ev : Z.even y = negb (N.odd (Z.to_N y))) by (rewrite <- EO, Z2N.id by exact Py; reflexivity).
    destruct Ox as [Lx Nx].
    assert (Same : forall xb', octets x xb' -> xb' = xb).
    { intros xb' [L' N']. rewrite <- (be_bytes_num xb'), <- (be_bytes_num xb), L', Lx. f_equal.
      rewrite number_num in N', Nx. lia. }
    destruct H as [(xb' & O & ->)|[(xb' & yb & O & Oy & ->)|(xb' & yb & O & Oy & ->)]]; rewrite (Same _ O); clear O xb'.
    + apply compressed_parses; [destruct (Z.even y); auto|exact Lx|]. apply on_curve_root_iff. rewrite Ex. split; [exact Hx|].
      exact (point_on_curve _ (Z.to_N y) Hx Hy E).
    + destruct (octets_num _ _ Oy) as [Ey _]. destruct Oy as [Ly _]. rewrite point_parses; rewrite ?Ex, ?Ey; auto.
      rewrite Ev. now destruct (N.odd _).
    + destruct (octets_num _ _ Oy) as [Ey _]. destruct Oy as [Ly _]. rewrite point_parses; rewrite ?Ex, ?Ey; auto.
      * rewrite Ev. now destruct (N.odd _).
      * right. rewrite Ev. now destruct (N.odd _).
Qed.
Print Assumptions C149_keys.

(** An x-only key is the x coordinate of a point. *)
Theorem C149_xonly : forall b, @xonly_ok real_root b = true <-> exists y, point (number b) y.
Proof.
  intros b. change (@xonly_ok real_root b) with (on_curve_root (be_num b)). rewrite on_curve_root_iff, number_num. split.
  - intros [Hx R]. destruct (curve_y_ok true (be_num b) Hx R) as (Hy & E & _). exists (Z.of_N (curve_y true (be_num b))).
    exact (proj2 (point_iff _ _) (conj Hx (conj Hy E))).
  - intros (y & P). assert (Py : (0 <= y)%Z) by (destruct P as (_ & [? _] & _); auto).
    rewrite <- (Z2N.id y) in P by auto. apply point_iff in P as (Hx & Hy & E). split; [exact Hx|].
    exact (point_on_curve _ (Z.to_N y) Hx Hy E).
Qed.
Print Assumptions C149_xonly.

(** Everything assumed of the hash functions, the keys and the signatures ([ExtLaws], Ext.v). *)
Theorem C149_laws : ExtLaws real_root.
Proof. exact real_root_laws. Qed.
Print Assumptions C149_laws.

(** The signatures that are made are in DER form with the smaller s (BIP-62, BIP-146), whatever the
    key and the message are. *)
Lemma sign_form m k : exists r s, r < ORDER /\ s <= ORDER / 2 /\ real_sign m k = der_sig r s.
Proof.
  unfold real_sign. cbv zeta. set (q := nonce m k). clearbody q.
  set (r := fst (base_mul q) mod ORDER). assert (Hr : r < ORDER) by (apply N.mod_lt; discriminate). clearbody r.
  set (s := (inv_mod ORDER q * ((be_num m + r * be_num k) mod ORDER)) mod ORDER). assert (Hs : s < ORDER) by (apply N.mod_lt; discriminate). clearbody s.
  exists r, (if s <=? ORDER / 2 then s else ORDER - s). split; [exact Hr|]. split; [|reflexivity].
  assert (E : ORDER = 2 * (ORDER / 2) + 1) by reflexivity. set (h := ORDER / 2) in *. clearbody h. rewrite E in *.
  destruct (s <=? h) eqn:B; lia.
Qed.
Lemma der_num_integer x : x < ORDER -> integer_of (Z.of_N x) (der_num x).
Proof.
  intros H. pose proof (der_int_num x [] H) as E. rewrite app_nil_r in E. pose proof (der_num_len x H) as L. unfold der_num in *. cbv zeta in *.
  fold (der_len x) in *.
  set (v := if 128 <=? b2n (hd x00 (be_bytes (der_len x) x)) then x00 :: be_bytes (der_len x) x else be_bytes (der_len x) x) in *.
  assert (V : be_num v = x) by (unfold v; destruct (128 <=? _); rewrite ?be_num_zero; apply be_num_bytes, der_len_fits).
  clearbody v. cbn [length] in L. exists v. split; [reflexivity|]. split; [lia|]. split; [now rewrite number_num, V|].
  assert (NB : b2n (n2b (blen v)) = blen v) by (apply b2n_n2b; unfold blen; lia).
  unfold der_int in E. rewrite NB in E. replace ((blen v =? 0) || (128 <=? blen v) || (blen v <? blen v)) with false in E by (unfold blen; lia).
  replace (N.to_nat (blen v)) with (length v) in E by (unfold blen; lia). rewrite firstn_all, skipn_all in E.
  destruct v as [|a [|c v]]; [cbn [length] in L; lia| |]; cbv iota zeta in E.
  - destruct (128 <=? b2n a) eqn:A; [discriminate E|]. split; [cbn [hd]; lia|cbn [length]; lia].
  - destruct (beq a x00 && (b2n c <? 128) || beq a xff && (128 <=? b2n c) || (128 <=? b2n a)) eqn:A; [discriminate E|].
    apply orb_false_iff in A as [A A3]. apply orb_false_iff in A as [A1 A2]. split; [cbn [hd]; lia|].
    cbn [hd nth]. intros -> _. change (beq x00 x00) with true in A1. cbn [andb] in A1. lia.
Qed.
Lemma der_sig_parse r s : r < ORDER -> s < ORDER -> real_der_parse (der_sig r s) = Some (der_sig r s).
Proof.
  intros Hx Hy. pose proof (der_num_len r Hx). pose proof (der_num_len s Hy).
  assert (B : blen (der_num r ++ der_num s) < 128) by (unfold blen; rewrite app_length; lia).
  unfold der_sig at 1. cbv zeta. unfold real_der_parse. rewrite b2n_n2b by lia.
  rewrite N.eqb_refl. assert (blen (der_num r ++ der_num s) <? 128 = true) as -> by lia. cbn [andb].
  rewrite der_int_num by exact Hx. rewrite <- (app_nil_r (der_num s)), der_int_num by exact Hy. rewrite ?app_nil_r. reflexivity.
Qed.
Theorem C149_signatures : forall m k, @der_parse real_root (@sign_ecdsa real_signer m k) = Some (@sign_ecdsa real_signer m k)
  /\ (8 <= length (@sign_ecdsa real_signer m k) <= 72)%nat
  /\ exists r s, (0 <= r < order)%Z /\ (0 <= s <= order / 2)%Z /\ sequence_of r s (@sign_ecdsa real_signer m k).
Proof.
  intros m k. change (@sign_ecdsa real_signer m k) with (real_sign m k). change (@der_parse real_root) with real_der_parse.
  destruct (sign_form m k) as (r & s & Hr & Hs & ->).
  assert (E : ORDER = 2 * (ORDER / 2) + 1) by reflexivity.
  assert (Z : Z.of_N ORDER = order) by reflexivity. assert (Z2 : Z.of_N (ORDER / 2) = (order / 2)%Z) by reflexivity.
  assert (Hs' : s < ORDER) by (clear Z Z2; set (h := ORDER / 2) in *; clearbody h; lia). clear E.
  pose proof (der_num_len r Hr) as Lr. pose proof (der_num_len s Hs') as Ls.
  split; [now apply der_sig_parse|]. split.
  - unfold der_sig. cbv zeta. cbn [length]. rewrite app_length. lia.
  - exists (Z.of_N r), (Z.of_N s). rewrite <- Z2. split; [rewrite <- Z; clear - Hr; set (o := ORDER) in *; clearbody o; lia|].
    split; [clear - Hs; set (h := ORDER / 2) in *; clearbody h; lia|].
    unfold der_sig. cbv zeta. exists (der_num r), (der_num s). split; [now apply der_num_integer|]. split; [now apply der_num_integer|].
    split; [rewrite app_length; lia|reflexivity].
Qed.
Print Assumptions C149_signatures.

(** So the round trips hold with nothing assumed of the dependencies. *)
Theorem C149_roundtrip : forall (C : Cfg) p, wf_psbt (X := real_root) p ->
  exists p', psbt_deserialize (X := real_root) (psbt_serialize (X := real_root) p) = Ok p' /\ psbt_eq p p'.
Proof. exact (C01_roundtrip real_root real_root_laws). Qed.
Print Assumptions C149_roundtrip.
Theorem C149_v0_roundtrip : forall p, wf_psbt0 (X := real_root) p ->
  exists p', psbt0_deserialize (X := real_root) (psbt0_serialize (X := real_root) p) = Ok p' /\ psbt0_eq p p'.
Proof. exact (C45_roundtrip real_root real_root_laws). Qed.
Print Assumptions C149_v0_roundtrip.

(** The base point of SEC 2 in its three forms; one bit of y changed is no key, nor is x = 5, no x
    coordinate of a point. *)
Definition GX : bytes := be_bytes 32 0x79be667ef9dcbbac55a06295ce870b07029bfcdb2dce28d959f2815b16f81798.
Definition GY : bytes := be_bytes 32 0x483ada7726a3c4655da4fbfc0e1108a8fd17b448a68554199c47d08ffb10d4b8.
Example C149_case :
  point (number GX) (number GY)
  /\ @secp_parse real_root (x02 :: GX) = Some (x02 :: GX)
  /\ @secp_parse real_root (x04 :: GX ++ GY) = Some (x02 :: GX)
  /\ @secp_parse real_root (x06 :: GX ++ GY) = Some (x02 :: GX)
  /\ @secp_parse real_root (x07 :: GX ++ GY) = None
  /\ @secp_parse real_root (x04 :: GX ++ be_bytes 32 (be_num GY + 1)) = None
  /\ @secp_uncompress real_root (x02 :: GX) = x04 :: GX ++ GY
  /\ @xonly_ok real_root GX = true
  /\ @xonly_ok real_root (be_bytes 32 5) = false.
Proof.
  assert (P : point (number GX) (number GY)) by (vm_compute; intuition congruence).
  assert (U : @secp_parse real_root (x04 :: GX ++ GY) = Some (x02 :: GX)) by (vm_compute; reflexivity).
  refine (conj P (conj _ (conj U (conj _ (conj _ (conj _ (conj _ (conj _ _)))))))).
  - exact (@secp_parse_idem _ C149_laws _ _ U).
  - vm_compute. reflexivity.
  - vm_compute. reflexivity.
  - vm_compute. reflexivity.
  - symmetry. exact (@secp_uncompress_unique _ C149_laws _ _ U eq_refl eq_refl).
  - exact (proj2 (C149_xonly GX) (ex_intro _ _ P)).
  - vm_compute. reflexivity.
Qed.

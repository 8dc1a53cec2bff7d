(** Facts about base64 and the text of PSBTs. *)
From Coq Require Import Strings.String.
From Verif Require Import Base OMap Consensus Ext Raw TapTree Serialize MapCodec SighashType
  V2Global V2Input V2Output V2Psbt V2Roles V0Error V0Psbt SpecText Text.
Local Open Scope N_scope.

Lemma b64_value_char n : n < 64 -> b64_value (b64_char n) = Some n.
Proof.
  intros H.
  assert (F : forallb (fun k => match b64_value (b64_char (N.of_nat k)) with Some m => m =? N.of_nat k | None => false end) (seq 0 64) = true)
    by (vm_compute; reflexivity).
  rewrite forallb_forall in F. specialize (F (N.to_nat n)). rewrite N2Nat.id in F.
  assert (I : In (N.to_nat n) (seq 0 64)) by (apply in_seq; lia).
  apply F in I. destruct (b64_value _); [|discriminate]. apply N.eqb_eq in I. now subst.
Qed.

Definition all_bytes : list byte := map (fun k => n2b (N.of_nat k)) (seq 0 256).
Lemma all_bytes_all b : In b all_bytes.
Proof.
  apply in_map_iff. exists (N.to_nat (b2n b)). rewrite N2Nat.id. split; [apply n2b_b2n|].
  apply in_seq. pose proof (b2n_lt b). lia.
Qed.
Lemma byte_check (f : byte -> bool) : forallb f all_bytes = true -> forall b, f b = true.
Proof. intros F b. rewrite forallb_forall in F. apply F, all_bytes_all. Qed.

Lemma b64_char_value c n : b64_value c = Some n -> n < 64 /\ b64_char n = c.
Proof.
  revert n.
  assert (F : forall c, (match b64_value c with Some n => (n <? 64) && beq (b64_char n) c | None => true end) = true).
  { apply byte_check. vm_compute. reflexivity. }
  intros n H. specialize (F c). rewrite H in F. apply andb_prop in F as [F1 F2].
  split; [lia|]. unfold beq in F2. apply b2n_inj. lia.
Qed.
Lemma b64_value_pad : b64_value B64_PAD = None.
Proof. reflexivity. Qed.
Lemma b64_char_pad n : n < 64 -> beq (b64_char n) B64_PAD = false.
Proof.
  intros H. destruct (beq (b64_char n) B64_PAD) eqn:E; [|reflexivity].
  unfold beq in E. apply N.eqb_eq, b2n_inj in E. pose proof (b64_value_char n H) as V. rewrite E in V.
  discriminate.
Qed.

Lemma b64_digit_char n : n < 64 -> b64_digit (b64_char n) = Ok n.
Proof. intros H. unfold b64_digit. now rewrite b64_value_char. Qed.
Lemma b64_digit_ok c n : b64_digit c = Ok n -> n < 64 /\ c = b64_char n.
Proof.
  unfold b64_digit. intros H. apply ok_or_ok in H. apply b64_char_value in H as [H <-]. now split.
Qed.

(** ** Decoding and encoding *)

Lemma triple_ind (P : bytes -> Prop) :
  P [] -> (forall a, P [a]) -> (forall a b, P [a; b]) ->
  (forall a b c r, P r -> P (a :: b :: c :: r)) -> forall l, P l.
Proof.
  intros H0 H1 H2 H3.
  assert (G : forall n l, (length l <= n)%nat -> P l).
  { induction n as [|n IH]; intros [|a [|b [|c r]]] Hl; cbn in Hl; auto; try lia. apply H3, IH. lia. }
  intros l. now apply (G (length l)).
Qed.
Lemma quad_ind (P : bytes -> Prop) :
  P [] -> (forall a, P [a]) -> (forall a b, P [a; b]) -> (forall a b c, P [a; b; c]) ->
  (forall a b c d r, P r -> P (a :: b :: c :: d :: r)) -> forall l, P l.
Proof.
  intros H0 H1 H2 H3 H4.
  assert (G : forall n l, (length l <= n)%nat -> P l).
  { induction n as [|n IH]; intros [|a [|b [|c [|d r]]]] Hl; cbn in Hl; auto; try lia. apply H4, IH. lia. }
  intros l. now apply (G (length l)).
Qed.

Lemma n2b_eq n b : n = b2n b -> n2b n = b.
Proof. intros ->. apply n2b_b2n. Qed.

Lemma b64_encode_nil bs : b64_encode bs = [] -> bs = [].
Proof. destruct bs as [|a [|b [|c r]]]; cbn; congruence. Qed.

Lemma b64_decode_encode bs : b64_decode (b64_encode bs) = Ok bs.
Proof.
  induction bs as [|a|a b|a b c r IH] using triple_ind.
  - reflexivity.
  - pose proof (b2n_lt a). cbn [b64_encode b64_decode].
    rewrite !b64_digit_char by lia. cbn [bind].
    replace (beq B64_PAD B64_PAD) with true by reflexivity. cbn [negb fail_if bind].
    replace (b2n a mod 4 * 16 mod 16 =? 0) with true by lia. cbn [negb fail_if bind].
    do 2 f_equal. apply n2b_eq. lia.
  - pose proof (b2n_lt a). pose proof (b2n_lt b). cbn [b64_encode b64_decode].
    rewrite !b64_digit_char by lia. cbn [bind]. rewrite b64_char_pad by lia.
    replace (beq B64_PAD B64_PAD) with true by reflexivity. cbn [negb fail_if bind].
    replace (b2n b mod 16 * 4 mod 4 =? 0) with true by lia. cbn [negb fail_if bind].
    f_equal. f_equal; [apply n2b_eq; lia|]. f_equal. apply n2b_eq. lia.
  - pose proof (b2n_lt a). pose proof (b2n_lt b). pose proof (b2n_lt c).
    assert (E : forall v1 v2 v3 v4, v1 = b2n a / 4 -> v2 = b2n a mod 4 * 16 + b2n b / 16 ->
      v3 = b2n b mod 16 * 4 + b2n c / 64 -> v4 = b2n c mod 64 ->
      n2b (v1 * 4 + v2 / 16) = a /\ n2b (v2 mod 16 * 16 + v3 / 4) = b /\ n2b (v3 mod 4 * 64 + v4) = c).
    { intros v1 v2 v3 v4 -> -> -> ->. split; [|split]; apply n2b_eq; lia. }
    edestruct E as (Ea & Eb & Ec); try reflexivity.
    cbn [b64_encode b64_decode].
    rewrite !b64_digit_char by lia. cbn [bind].
    destruct (b64_encode r) eqn:Er.
    + apply b64_encode_nil in Er. subst r. rewrite !b64_char_pad by lia. now rewrite Ea, Eb, Ec.
    + rewrite IH. cbn [bind]. now rewrite Ea, Eb, Ec.
Qed.

Lemma b64_encode_decode s bs : b64_decode s = Ok bs -> s = b64_encode bs.
Proof.
  revert bs. induction s as [|a|a b|a b c|c1 c2 c3 c4 r IH] using quad_ind; intros bs H; try discriminate.
  - injection H as <-. reflexivity.
  - cbn [b64_decode] in H.
    apply bind_ok in H as (v1 & D1 & H). apply b64_digit_ok in D1 as [L1 ->].
    apply bind_ok in H as (v2 & D2 & H). apply b64_digit_ok in D2 as [L2 ->].
    assert (G : forall v3 v4, v3 < 64 -> v4 < 64 -> forall l,
      b64_encode (n2b (v1 * 4 + v2 / 16) :: n2b (v2 mod 16 * 16 + v3 / 4) :: n2b (v3 mod 4 * 64 + v4) :: l)
      = b64_char v1 :: b64_char v2 :: b64_char v3 :: b64_char v4 :: b64_encode l).
    { intros v3 v4 L3 L4 l. cbn [b64_encode]. rewrite !b2n_n2b by lia.
      f_equal; [f_equal; lia|]. f_equal; [f_equal; lia|]. f_equal; [f_equal; lia|]. f_equal. f_equal. lia. }
    destruct r as [|c5 r].
    + destruct (beq c3 B64_PAD) eqn:E3.
      * apply N.eqb_eq, b2n_inj in E3. subst c3.
        apply bind_ok in H as ([] & E4 & H). apply bind_ok in H as ([] & Et & H).
        injection H as <-. unfold fail_if in E4, Et.
        destruct (beq c4 B64_PAD) eqn:E; [|discriminate]. apply N.eqb_eq, b2n_inj in E. subst c4.
        destruct (v2 mod 16 =? 0) eqn:Z; [|discriminate].
        cbn [b64_encode]. rewrite !b2n_n2b by lia. f_equal; [f_equal; lia|]. f_equal. f_equal. lia.
      * apply bind_ok in H as (v3 & D3 & H). apply b64_digit_ok in D3 as [L3 ->].
        destruct (beq c4 B64_PAD) eqn:E4.
        -- apply N.eqb_eq, b2n_inj in E4. subst c4. apply bind_ok in H as ([] & Et & H).
           injection H as <-. unfold fail_if in Et. destruct (v3 mod 4 =? 0) eqn:Z; [|discriminate].
           cbn [b64_encode]. rewrite !b2n_n2b by lia. f_equal; [f_equal; lia|]. f_equal; [f_equal; lia|].
           f_equal. f_equal. lia.
        -- apply bind_ok in H as (v4 & D4 & H). apply b64_digit_ok in D4 as [L4 ->].
           injection H as <-. now rewrite G.
    + apply bind_ok in H as (v3 & D3 & H). apply b64_digit_ok in D3 as [L3 ->].
      apply bind_ok in H as (v4 & D4 & H). apply b64_digit_ok in D4 as [L4 ->].
      apply bind_ok in H as (l & Dl & H). injection H as <-. rewrite G by assumption.
      now rewrite <- (IH l).
Qed.

Lemma b64_decode_nopanic s : b64_decode s <> Panic.
Proof.
  induction s as [|a|a b|a b c|c1 c2 c3 c4 r IH] using quad_ind; try discriminate.
  cbn [b64_decode]. unfold b64_digit, ok_or, fail_if.
  destruct (b64_value c1); [|discriminate]. destruct (b64_value c2); [|discriminate]. cbn [bind].
  destruct r.
  - destruct (beq c3 B64_PAD); destruct (b64_value c3), (beq c4 B64_PAD), (b64_value c4); cbn [bind negb];
      repeat (match goal with |- context [if ?b then _ else _] => destruct b end; cbn [bind]); discriminate.
  - destruct (b64_value c3); [|discriminate]. destruct (b64_value c4); [|discriminate]. cbn [bind].
    destruct (b64_decode (b :: r)); [discriminate|discriminate|now exfalso].
Qed.

(** ** The encoder against RFC 4648 *)

Lemma bits_len k n : length (bits k n) = k.
Proof. induction k; cbn; auto. Qed.
Lemma bits6_inj v w : v < 64 -> w < 64 -> bits 6 v = bits 6 w -> v = w.
Proof.
  intros Hv Hw H. cbn [bits] in H. apply N.bits_inj. intros i.
  destruct (N.lt_ge_cases i 6) as [L|L].
  - assert (I : i = 0 \/ i = 1 \/ i = 2 \/ i = 3 \/ i = 4 \/ i = 5) by lia.
    change (N.of_nat 5) with 5 in H. change (N.of_nat 4) with 4 in H. change (N.of_nat 3) with 3 in H.
    change (N.of_nat 2) with 2 in H. change (N.of_nat 1) with 1 in H. change (N.of_nat 0) with 0 in H.
    injection H as H5 H4 H3 H2 H1 H0.
    destruct I as [->|[->|[->|[->|[->| ->]]]]]; assumption.
  - assert (Z : forall x, x < 64 -> N.testbit x i = false).
    { intros x Hx. destruct (N.eq_dec x 0) as [->|Nz]; [apply N.bits_0|]. apply N.bits_above_log2.
      apply N.lt_le_trans with 6; [|assumption]. apply N.log2_lt_pow2; [lia|assumption]. }
    now rewrite (Z v), (Z w).
Qed.

Lemma testbit_arith n i : N.testbit n i = ((n / 2 ^ i) mod 2 =? 1).
Proof.
  rewrite N.testbit_eqb. reflexivity.
Qed.

Lemma beqb_ext (a b : N) : a = b -> (a =? 1) = (b =? 1).
Proof. now intros ->. Qed.

Lemma cons_ext {A} (a b : A) l m : a = b -> l = m -> a :: l = b :: m.
Proof. now intros -> ->. Qed.

Ltac bits_step := cbn [bits app]; rewrite !testbit_arith; cbn [N.of_nat Pos.of_succ_nat Pos.succ];
  repeat match goal with |- context [2 ^ ?i] => let v := eval vm_compute in (2 ^ i) in change (2 ^ i) with v end;
  repeat (apply cons_ext; [apply beqb_ext; lia|]); try reflexivity.

Lemma bits_three a b c : a < 256 -> b < 256 -> c < 256 ->
  bits 6 (a / 4) ++ bits 6 (a mod 4 * 16 + b / 16) ++ bits 6 (b mod 16 * 4 + c / 64) ++ bits 6 (c mod 64)
  = bits 8 a ++ bits 8 b ++ bits 8 c.
Proof. intros Ha Hb Hc. bits_step. Qed.
Lemma bits_two a b : a < 256 -> b < 256 ->
  bits 6 (a / 4) ++ bits 6 (a mod 4 * 16 + b / 16) ++ bits 6 (b mod 16 * 4) = bits 8 a ++ bits 8 b ++ [false; false].
Proof.
  intros Ha Hb. pose proof (bits_three a b 0 Ha Hb ltac:(lia)) as H.
  rewrite N.div_0_l, N.add_0_r in H by lia.
  apply (f_equal (firstn 18)) in H. exact H.
Qed.
Lemma bits_one a : a < 256 ->
  bits 6 (a / 4) ++ bits 6 (a mod 4 * 16) = bits 8 a ++ [false; false; false; false].
Proof.
  intros Ha. pose proof (bits_three a 0 0 Ha ltac:(lia) ltac:(lia)) as H.
  rewrite N.div_0_l, N.add_0_r in H by lia.
  apply (f_equal (firstn 12)) in H. exact H.
Qed.

Lemma char_symbol n : n < 64 -> nth_error (list_byte_of_string rfc4648_alphabet) (N.to_nat n) = Some (b64_char n) /\ n < 64.
Proof.
  intros H. split; [|assumption]. unfold b64_char.
  change (list_byte_of_string rfc4648_alphabet) with B64_ALPHABET.
  apply nth_error_nth'. replace (length B64_ALPHABET) with 64%nat by reflexivity. lia.
Qed.

Lemma encode_base64 bs : base64 bs (b64_encode bs).
Proof.
  induction bs as [|a|a b|a b c r IH] using triple_ind.
  - exists [], [], 0%nat. split; [reflexivity|]. split; [lia|]. split; [exists 0%nat; reflexivity|]. split; [constructor|reflexivity].
  - pose proof (b2n_lt a). exists [b2n a / 4; b2n a mod 4 * 16], [b64_char (b2n a / 4); b64_char (b2n a mod 4 * 16)], 2%nat.
    split; [reflexivity|]. split; [lia|]. split; [exists 1%nat; reflexivity|]. split.
    + repeat (constructor; [apply char_symbol; lia|]). constructor.
    + cbn [map concat]. rewrite !app_nil_r. apply bits_one. lia.
  - pose proof (b2n_lt a). pose proof (b2n_lt b).
    exists [b2n a / 4; b2n a mod 4 * 16 + b2n b / 16; b2n b mod 16 * 4],
      [b64_char (b2n a / 4); b64_char (b2n a mod 4 * 16 + b2n b / 16); b64_char (b2n b mod 16 * 4)], 1%nat.
    split; [reflexivity|]. split; [lia|]. split; [exists 1%nat; reflexivity|]. split.
    + repeat (constructor; [apply char_symbol; lia|]). constructor.
    + cbn [map concat]. rewrite !app_nil_r. rewrite <- app_assoc. apply bits_two; lia.
  - pose proof (b2n_lt a). pose proof (b2n_lt b). pose proof (b2n_lt c).
    destruct IH as (vs & cs & pad & Et & Hp & (m & Hm) & Hs & Hb).
    exists (b2n a / 4 :: b2n a mod 4 * 16 + b2n b / 16 :: b2n b mod 16 * 4 + b2n c / 64 :: b2n c mod 64 :: vs),
      (b64_char (b2n a / 4) :: b64_char (b2n a mod 4 * 16 + b2n b / 16) :: b64_char (b2n b mod 16 * 4 + b2n c / 64) :: b64_char (b2n c mod 64) :: cs), pad.
    split; [cbn [b64_encode app]; now rewrite Et|]. split; [assumption|].
    split; [exists (S m); cbn [b64_encode length]; rewrite Hm; lia|]. split.
    + repeat (constructor; [apply char_symbol; lia|]). assumption.
    + cbn [map concat]. rewrite Hb. rewrite <- !app_assoc.
      rewrite !app_assoc. f_equal. f_equal. rewrite <- !app_assoc. apply bits_three; lia.
Qed.

Lemma symbols_inj vs vs' cs cs' : symbols vs cs -> symbols vs' cs' -> vs = vs' -> cs = cs'.
Proof.
  intros H H' <-. revert cs' H'. induction H as [|v c vs cs [E _] H IH]; intros cs' H'; inversion H' as [|? ? ? ? [E' _] H'']; subst; [reflexivity|].
  f_equal; [congruence|now apply IH].
Qed.

Lemma bits6_concat vs : length (concat (map (bits 6) vs)) = (6 * length vs)%nat.
Proof. induction vs; [reflexivity|]. cbn [map concat]. rewrite app_length, bits_len, IHvs. cbn [length]. lia. Qed.
Lemma bits8_concat (bs : bytes) : length (concat (map (fun b => bits 8 (b2n b)) bs)) = (8 * length bs)%nat.
Proof. induction bs; [reflexivity|]. cbn [map concat]. rewrite app_length, bits_len, IHbs. cbn [length]. lia. Qed.

Lemma app_split {A} (l1 l2 r1 r2 : list A) : l1 ++ r1 = l2 ++ r2 -> length l1 = length l2 -> l1 = l2 /\ r1 = r2.
Proof.
  revert l2. induction l1 as [|a l1 IH]; intros [|b l2] E L; try discriminate; [now split|].
  cbn [app] in E. injection E as -> E. injection L as L. destruct (IH l2 E L) as [-> ->]. now split.
Qed.

Lemma bits6_concat_inj vs : forall vs', Forall (fun v => v < 64) vs -> Forall (fun v => v < 64) vs' ->
  concat (map (bits 6) vs) = concat (map (bits 6) vs') -> vs = vs'.
Proof.
  induction vs as [|v vs IH]; intros [|v' vs'] H H' E; try reflexivity.
  - apply (f_equal (@length bool)) in E. rewrite !bits6_concat in E. cbn [length] in E. lia.
  - apply (f_equal (@length bool)) in E. rewrite !bits6_concat in E. cbn [length] in E. lia.
  - cbn [map concat] in E.
    apply app_split in E as [E1 E2]; [|now rewrite !bits_len].
    inversion H; inversion H'; subst. f_equal; [now apply bits6_inj|now apply IH].
Qed.

Lemma symbols_lt vs cs : symbols vs cs -> Forall (fun v => v < 64) vs /\ length vs = length cs.
Proof. intros H. induction H as [|v c vs cs [_ L] H [IH IL]]; [split; [constructor|reflexivity]|]. split; [now constructor|]. cbn [length]. now rewrite IL. Qed.

Lemma base64_fun bs t t' : base64 bs t -> base64 bs t' -> t = t'.
Proof.
  intros (vs & cs & pad & -> & Hp & (m & Hm) & Hs & Hb) (vs' & cs' & pad' & -> & Hp' & (m' & Hm') & Hs' & Hb').
  destruct (symbols_lt _ _ Hs) as [Lv Ll]. destruct (symbols_lt _ _ Hs') as [Lv' Ll'].
  assert (P : pad = pad').
  { apply (f_equal (@length bool)) in Hb, Hb'. rewrite app_length, bits6_concat, bits8_concat, repeat_length in Hb, Hb'.
    rewrite app_length, repeat_length in Hm, Hm'. lia. }
  subst pad'. f_equal. apply (symbols_inj vs vs'); [assumption|assumption|].
  apply bits6_concat_inj; [assumption|assumption|congruence].
Qed.

Lemma base64_encode_iff bs t : base64 bs t <-> t = b64_encode bs.
Proof.
  split; [intros H; exact (base64_fun _ _ _ H (encode_base64 bs))|intros ->; apply encode_base64].
Qed.

Lemma base64_decode_iff bs t : base64 bs t <-> b64_decode t = Ok bs.
Proof.
  rewrite base64_encode_iff. split; [intros ->; apply b64_decode_encode|apply b64_encode_decode].
Qed.

Lemma b64_encode_inj bs bs' : b64_encode bs = b64_encode bs' -> bs = bs'.
Proof. intros H. apply (f_equal b64_decode) in H. rewrite !b64_decode_encode in H. now injection H. Qed.

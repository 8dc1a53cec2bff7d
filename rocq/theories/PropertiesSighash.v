(** C41 and C42: sighash types. *)
From Coq Require Import String.
From Verif Require Import Base Serialize SighashType SpecSighash.
Local Open Scope N_scope.

Lemma hex_value_iff b v : hex_value b = Some v <-> any_digit b v.
Proof.
  split.
  - destruct b; intros H; vm_compute in H; try discriminate H; injection H as <-;
      first [left; reflexivity | right; reflexivity].
  - intros H.
    assert (Hv : (N.to_nat v < 16)%nat).
    { destruct H as [H|H]; (assert (H' : nth_error _ (N.to_nat v) <> None) by (rewrite H; discriminate));
        apply nth_error_Some in H'; exact H'. }
    assert (Hc : v < 16) by lia. clear Hv.
    assert (Hl : In v [0;1;2;3;4;5;6;7;8;9;10;11;12;13;14;15]) by (cbn; lia).
    cbn in Hl. repeat destruct Hl as [Hl|Hl]; try contradiction; subst v;
      destruct H as [H|H]; vm_compute in H; injection H as <-; reflexivity.
Qed.
Lemma hex_value_lt b v : hex_value b = Some v -> v < 16.
Proof. destruct b; intros H; vm_compute in H; try discriminate H; injection H as <-; lia. Qed.
Lemma hex_digit_lower n : n < 16 -> lower_digit (hex_digit n) n.
Proof.
  intros H. assert (Hl : In n [0;1;2;3;4;5;6;7;8;9;10;11;12;13;14;15]) by (cbn; lia).
  cbn in Hl. repeat destruct Hl as [Hl|Hl]; try contradiction; subst n; reflexivity.
Qed.
Lemma any_digit_hex c v : any_digit c v -> c <> x78 /\ c <> x2b /\ c <> x2d.
Proof. intros H. apply hex_value_iff in H. repeat split; intros ->; vm_compute in H; discriminate. Qed.

Lemma hex_acc_snoc a s b :
  hex_acc a (s ++ [b]) =
  match hex_acc a s with
  | None => None
  | Some n => match hex_value b with
              | None => None
              | Some d => if n * 16 <? U32 then if n * 16 + d <? U32 then Some (n * 16 + d) else None else None
              end
  end.
Proof.
  revert a. induction s as [|c s IH]; intros a; cbn [app hex_acc].
  - destruct (hex_value b); auto.
  - destruct (hex_value c); auto. destruct (a * 16 <? U32); auto. destruct (_ <? U32); auto.
Qed.
Lemma hex_acc_iff s n : s <> [] -> (hex_acc 0 s = Some n <-> digits any_digit s n /\ n < 2 ^ 32).
Proof.
  change (2 ^ 32) with U32. revert n. induction s as [|b s IH] using rev_ind; intros n Hs; [congruence|clear Hs].
  destruct s as [|c s].
  - cbn [app hex_acc]. split.
    + destruct (hex_value b) as [d|] eqn:Hd; [|discriminate].
      pose proof (hex_value_lt _ _ Hd). cbn. destruct (d <? U32) eqn:E; [|discriminate].
      intros [= <-]. split; [|lia]. constructor. now apply hex_value_iff.
    + intros [H Hn]. inversion H as [c v Hc E1 E2|s m c v Hd Hc E1 E2]; subst.
      * apply hex_value_iff in Hc. rewrite Hc. cbn. now replace (n <? U32) with true by lia.
      * destruct s as [|c' s]; [inversion Hd; destruct s; discriminate|]. destruct s; discriminate.
  - rewrite hex_acc_snoc. split.
    + destruct (hex_acc 0 (c :: s)) as [m|] eqn:Hm; [|discriminate].
      clear Hm. destruct (proj1 (IH m ltac:(discriminate)) eq_refl) as [Hm Hb].
      destruct (hex_value b) as [d|] eqn:Hd; [|discriminate].
      destruct (m * 16 <? U32); [|discriminate]. destruct (m * 16 + d <? U32) eqn:E; [|discriminate].
      intros [= <-]. split; [|lia]. rewrite N.mul_comm. apply (DMore _ (c :: s)); [exact Hm|now apply hex_value_iff].
    + intros [H Hn]. inversion H as [c' v Hc E1 E2|s' m c' v Hd Hc E1 E2].
      * destruct s; discriminate.
      * apply (app_inj_tail s' (c :: s)) in E1 as [-> ->].
        apply hex_value_iff in Hc. pose proof (hex_value_lt _ _ Hc).
        rewrite (proj2 (IH m ltac:(discriminate))) by (split; [exact Hd|lia]).
        rewrite Hc. replace (m * 16 <? U32) with true by lia.
        replace (m * 16 + v <? U32) with true by lia. f_equal. lia.
Qed.
Lemma digits_cons P s n : digits P s n -> exists c r v, s = c :: r /\ P c v.
Proof.
  induction 1 as [c v H|s n c v H (c' & r & v' & -> & Hc) H']; [now exists c, [], v|].
  now exists c', (r ++ [c]), v'.
Qed.
Lemma digits_all P s n : digits P s n -> Forall (fun c => exists v, P c v) s.
Proof. induction 1; [eauto|]. apply Forall_app. split; [auto|eauto]. Qed.

Lemma u32_from_hex_iff s n :
  u32_from_hex s = Some n <->
  exists (plus : bool) d, s = (if plus then [x2b] else []) ++ d /\ digits any_digit d n /\ n < 2 ^ 32.
Proof.
  split.
  - destruct s as [|b [|c r]]; cbn [u32_from_hex]; [discriminate| |].
    + destruct (_ || _)%bool; [discriminate|]. intros H. apply hex_acc_iff in H as []; [|discriminate].
      exists false, [b]. auto.
    + destruct (beq b x2b) eqn:E; intros H; apply hex_acc_iff in H as []; try discriminate.
      * apply beq_eq in E. subst b. exists true, (c :: r). auto.
      * exists false, (b :: c :: r). auto.
  - intros (plus & d & -> & Hd & Hn). destruct (digits_cons _ _ _ Hd) as (c & r & v & -> & Hc).
    pose proof (any_digit_hex _ _ Hc) as (_ & H1 & H2).
    assert (Hr : hex_acc 0 (c :: r) = Some n) by (apply hex_acc_iff; [discriminate|auto]).
    destruct plus; cbn [app u32_from_hex].
    + rewrite beq_refl. exact Hr.
    + destruct (beq c x2b) eqn:E; [apply beq_eq in E; contradiction|].
      destruct (beq c x2d) eqn:E'; [apply beq_eq in E'; contradiction|].
      destruct r; exact Hr.
Qed.
Lemma trim_repeat k s : trim_0x (concat (repeat (list_byte_of_string "0x") k) ++ s) = trim_0x s.
Proof. induction k as [|k IH]; cbn; auto. Qed.
Lemma trim_spec s : exists k, s = concat (repeat (list_byte_of_string "0x") k) ++ trim_0x s.
Proof.
  assert (H : forall n s, (length s <= n)%nat -> exists k, s = concat (repeat (list_byte_of_string "0x") k) ++ trim_0x s).
  { intros n. induction n as [|n IH]; intros [|b [|c r]] Hn; try (now exists 0%nat); cbn [length] in Hn.
    cbn [trim_0x]. destruct (beq b x30 && beq c x78)%bool eqn:E; [|now exists 0%nat].
    apply andb_true_iff in E as [E1 E2]. apply beq_eq in E1, E2. subst.
    destruct (IH r ltac:(lia)) as [k Hk]. exists (S k). cbn [repeat concat]. rewrite <- app_assoc, <- Hk. reflexivity. }
  apply (H _ _ (le_n _)).
Qed.
Lemma trim_digits (plus : bool) d n :
  digits any_digit d n -> trim_0x ((if plus then [x2b] else []) ++ d) = (if plus then [x2b] else []) ++ d.
Proof.
  intros H. destruct (digits_cons _ _ _ H) as (c & r & v & -> & Hc). destruct plus; cbn [app trim_0x].
  - reflexivity.
  - destruct r as [|c' r]; [reflexivity|].
    destruct (beq c' x78) eqn:E; [|now rewrite andb_false_r].
    apply digits_all in H. apply Forall_inv_tail, Forall_inv in H as [v' H].
    apply beq_eq in E. now apply any_digit_hex in H as [].
Qed.
Lemma tap_parse_iff s t :
  tap_parse s = Some t <-> exists n s', In (t, (n, s')) tap_table /\ s = list_byte_of_string s'.
Proof.
  split.
  - unfold tap_parse. intros H.
    repeat match type of H with
    | (if bytes_eqb s ?l then _ else _) = _ =>
        let E := fresh in destruct (bytes_eqb s l) eqn:E;
        [apply bytes_eqb_eq in E; injection H as <-; subst s; eexists _, _; split; [cbn; intuition reflexivity|reflexivity]|]
    end. discriminate.
  - intros (n & s' & H & ->). cbn [In tap_table] in H.
    repeat destruct H as [H|H]; try contradiction; injection H as <- <- <-; reflexivity.
Qed.
Lemma tap_num_table t n s : In (t, (n, s)) tap_table -> tap_num t = n.
Proof. cbn [In tap_table]. intros H. repeat destruct H as [H|H]; try contradiction; now injection H as <- <- <-. Qed.

Lemma hex_digits_spec f n : n < 16 ^ N.of_nat f -> 0 < n ->
  digits lower_digit (hex_digits f n) n /\ hd x00 (hex_digits f n) <> x30.
Proof.
  revert n. induction f as [|f IH]; intros n Hn H0; [cbn in Hn; lia|].
  cbn [hex_digits]. rewrite Nat2N.inj_succ, N.pow_succ_r' in Hn.
  destruct (n / 16 =? 0) eqn:E.
  - assert (n < 16) by lia. rewrite N.mod_small by lia. cbn [app hd]. split.
    + constructor. now apply hex_digit_lower.
    + assert (Hl : In n [1;2;3;4;5;6;7;8;9;10;11;12;13;14;15]) by (cbn; lia).
      cbn in Hl. repeat destruct Hl as [Hl|Hl]; try contradiction; subst n; discriminate.
  - destruct (IH (n / 16)) as [H1 H2]; [lia|lia|]. split.
    + assert (Hm : digits lower_digit (hex_digits f (n / 16) ++ [hex_digit (n mod 16)]) (16 * (n / 16) + n mod 16)).
      { constructor; [exact H1|]. apply hex_digit_lower. lia. }
      now rewrite <- N.div_mod in Hm by lia.
    + destruct (digits_cons _ _ _ H1) as (c & r & v & E' & _). rewrite E' in *. exact H2.
Qed.
Lemma sighash_tap_table n t : sighash_tap_ty n = Some t <-> exists s, In (t, (n, s)) tap_table.
Proof.
  unfold sighash_tap_ty. split.
  - destruct (255 <? n) eqn:E; [discriminate|]. rewrite N.mod_small by lia. intros H.
    assert (Hl : n = 0 \/ n = 1 \/ n = 2 \/ n = 3 \/ n = 129 \/ n = 130 \/ n = 131).
    { unfold tap_from_u8 in H.
      destruct n as [|p]; [auto|]. do 8 (destruct p as [p|p|]; try discriminate; auto 12). }
    destruct Hl as [->|[->|[->|[->|[->|[->| ->]]]]]]; vm_compute in H; injection H as <-; eexists; cbn; intuition reflexivity.
  - intros [s H]. cbn [In tap_table] in H. repeat destruct H as [H|H]; try contradiction; injection H as <- <- <-; reflexivity.
Qed.

(** ** C41 *)

(** What is printed is read back. *)
Theorem C41_roundtrip : forall n, n < 2 ^ 32 -> sighash_from_str (sighash_display n) = Some n.
Proof.
  intros n Hn. unfold sighash_display, sighash_from_str. destruct (sighash_tap_ty n) as [t|] eqn:E.
  - apply sighash_tap_table in E as [s E]. pose proof (tap_num_table _ _ _ E) as <-. destruct t; reflexivity.
  - assert (H0 : n <> 0) by (intros ->; discriminate E).
    assert (Hd : digits lower_digit (hex_digits 8 n) n) by (apply (hex_digits_spec 8); [exact Hn|lia]).
    assert (Ha : digits any_digit (hex_digits 8 n) n).
    { clear - Hd. induction Hd; [constructor 1|constructor 2]; auto; now left. }
    destruct (tap_parse _) as [t|] eqn:Et.
    { apply tap_parse_iff in Et as (m & s' & H & H'). exfalso. cbn [In tap_table] in H.
      repeat destruct H as [H|H]; try contradiction; injection H as <- <- <-; discriminate H'. }
    change (str "0x") with (concat (repeat (list_byte_of_string "0x") 1)).
    rewrite trim_repeat. pose proof (trim_digits false _ _ Ha) as Ht. cbn [app] in Ht. rewrite Ht.
    apply u32_from_hex_iff. exists false, (hex_digits 8 n). auto.
Qed.

(** The strings that are read, and what they are read as. *)
Theorem C41_accepted : forall s n, sighash_from_str s = Some n <-> sighash_text s n.
Proof.
  intros s n. split.
  - unfold sighash_from_str. destruct (tap_parse s) as [t|] eqn:Et.
    + intros [= <-]. apply tap_parse_iff in Et as (m & s' & H & ->).
      unfold from_tap. rewrite (tap_num_table _ _ _ H). econstructor; exact H.
    + intros H. apply u32_from_hex_iff in H as (plus & d & H1 & H2 & H3).
      destruct (trim_spec s) as [k Hk]. rewrite Hk, H1.
      change [x2b] with (list_byte_of_string "+"). now constructor.
  - intros [t m s' H|k plus d m Hd Hm]; unfold sighash_from_str.
    + rewrite (proj2 (tap_parse_iff _ t)) by eauto. unfold from_tap. now rewrite (tap_num_table _ _ _ H).
    + change (list_byte_of_string "+") with [x2b].
      destruct (tap_parse _) as [t|] eqn:Et.
      { exfalso. apply tap_parse_iff in Et as (m' & s' & H & H').
        assert (Hc : exists r, list_byte_of_string s' = x53 :: r).
        { clear - H. cbn [In tap_table] in H.
          repeat destruct H as [H|H]; try contradiction; injection H as <- <- <-; eexists; reflexivity. }
        destruct Hc as [r Hc]. rewrite Hc in H'. destruct k; [|discriminate H']. destruct plus; [discriminate H'|].
        destruct (digits_cons _ _ _ Hd) as (c & r' & v & -> & Hv). injection H' as -> _.
        apply hex_value_iff in Hv. discriminate Hv. }
      rewrite trim_repeat, (trim_digits _ _ _ Hd). apply u32_from_hex_iff. eauto.
Qed.

(** What is printed. *)
Theorem C41_printed : forall n, n < 2 ^ 32 -> sighash_printed n (sighash_display n).
Proof.
  intros n Hn. unfold sighash_display. destruct (sighash_tap_ty n) as [t|] eqn:E.
  - apply sighash_tap_table in E as [s E]. replace (tap_name t) with (list_byte_of_string s); [econstructor; exact E|].
    cbn [In tap_table] in E. repeat destruct E as [E|E]; try contradiction; injection E as <- _ <-; reflexivity.
  - assert (H0 : n <> 0) by (intros ->; discriminate E).
    destruct (hex_digits_spec 8 n) as [H1 H2]; [exact Hn|lia|].
    constructor; auto. intros t s H.
    assert (E' : sighash_tap_ty n = Some t) by (apply sighash_tap_table; eauto). congruence.
Qed.

(** Values with and without a name; non-canonical text; text that is rejected. *)
Example C41_example :
  sighash_display 129 = list_byte_of_string "SIGHASH_ALL|SIGHASH_ANYONECANPAY"
  /\ sighash_display 4 = list_byte_of_string "0x4"
  /\ sighash_display 4294967295 = list_byte_of_string "0xffffffff"
  /\ sighash_from_str (list_byte_of_string "0x0x+0000000fF") = Some 255
  /\ sighash_from_str (list_byte_of_string "0x100000000") = None
  /\ sighash_from_str (list_byte_of_string "0x") = None
  /\ sighash_from_str (list_byte_of_string "sighash_all") = None.
Proof. repeat split; vm_compute; reflexivity. Qed.

(** ** C42 *)

Lemma ecdsa_table_ok n t : sighash_ecdsa_ty n = Some t <-> In (t, n) ecdsa_table.
Proof.
  split.
  - unfold sighash_ecdsa_ty, ecdsa_from_std. intros H.
    assert (Hl : n = 1 \/ n = 2 \/ n = 3 \/ n = 129 \/ n = 130 \/ n = 131).
    { destruct n as [|p]; [discriminate|]. do 8 (destruct p as [p|p|]; try discriminate; auto 12). }
    destruct Hl as [->|[->|[->|[->|[->| ->]]]]]; injection H as <-; cbn; intuition reflexivity.
  - intros H. cbn [In ecdsa_table] in H. repeat destruct H as [H|H]; try contradiction; injection H as <- <-; reflexivity.
Qed.

(** Both conversions succeed on the numbers of the types only, and are inverse to the
    conversions from the types. *)
Theorem C42_conversions : forall n,
  (forall t, sighash_ecdsa_ty n = Some t <-> In (t, n) ecdsa_table)
  /\ (forall t, sighash_tap_ty n = Some t <-> exists s, In (t, (n, s)) tap_table)
  /\ (sighash_ecdsa_ty n <> None <-> In n [1; 2; 3; 0x81; 0x82; 0x83])
  /\ (sighash_tap_ty n <> None <-> In n [0; 1; 2; 3; 0x81; 0x82; 0x83])
  /\ (forall t, sighash_ecdsa_ty (from_ecdsa t) = Some t)
  /\ (forall t, sighash_tap_ty (from_tap t) = Some t)
  /\ (forall t, sighash_ecdsa_ty n = Some t -> from_ecdsa t = n)
  /\ (forall t, sighash_tap_ty n = Some t -> from_tap t = n).
Proof.
  intros n.
  assert (He : forall t, sighash_ecdsa_ty n = Some t -> from_ecdsa t = n).
  { intros t H. apply ecdsa_table_ok in H. cbn [In ecdsa_table] in H.
    repeat destruct H as [H|H]; try contradiction; now injection H as <- <-. }
  assert (Ht : forall t, sighash_tap_ty n = Some t -> from_tap t = n).
  { intros t H. apply sighash_tap_table in H as [s H]. exact (tap_num_table _ _ _ H). }
  split; [intros t; apply ecdsa_table_ok|]. split; [intros t; apply sighash_tap_table|].
  split; [|split; [|split; [now intros []|split; [now intros []|split; assumption]]]].
  - split.
    + destruct (sighash_ecdsa_ty n) as [t|]; [intros _|congruence].
      rewrite <- (He t eq_refl). destruct t; cbn; auto 10.
    + cbn [In]. intros H. repeat destruct H as [H|H]; try contradiction; subst n; discriminate.
  - split.
    + destruct (sighash_tap_ty n) as [t|]; [intros _|congruence].
      rewrite <- (Ht t eq_refl). destruct t; cbn; auto 10.
    + cbn [In]. intros H. repeat destruct H as [H|H]; try contradiction; subst n; discriminate.
Qed.

(** The boolean tests of the codec are these conversions. *)
Theorem C42_codec_tests : forall n,
  (ecdsa_sighash_std n = true <-> exists t, sighash_ecdsa_ty n = Some t)
  /\ (n < 256 -> (tap_sighash_std n = true <-> exists t, sighash_tap_ty n = Some t)).
Proof.
  intros n. pose proof (C42_conversions n) as (_ & _ & He & Ht & _). split.
  - transitivity (In n [1; 2; 3; 0x81; 0x82; 0x83]).
    + unfold ecdsa_sighash_std. cbn. lia.
    + rewrite <- He. destruct (sighash_ecdsa_ty n) as [t|]; split; try congruence; eauto. now intros [t ?].
  - intros _. transitivity (In n [0; 1; 2; 3; 0x81; 0x82; 0x83]).
    + unfold tap_sighash_std, ecdsa_sighash_std. cbn. lia.
    + rewrite <- Ht. destruct (sighash_tap_ty n) as [t|]; split; try congruence; eauto. now intros [t ?].
Qed.

(** Types in and out of the tables. *)
Example C42_example :
  sighash_ecdsa_ty 131 = Some ESingleAcp /\ sighash_tap_ty 0 = Some TDefault /\ sighash_ecdsa_ty 0 = None
  /\ sighash_tap_ty 128 = None /\ sighash_tap_ty 257 = None /\ sighash_ecdsa_ty 257 = None.
Proof. repeat split. Qed.

Print Assumptions C41_roundtrip.
Print Assumptions C41_accepted.
Print Assumptions C41_printed.
Print Assumptions C42_conversions.
Print Assumptions C42_codec_tests.

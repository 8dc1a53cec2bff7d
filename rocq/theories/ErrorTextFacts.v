(** The texts of errors can be read back. *)
From Coq Require Import Strings.String.
From Verif Require Import Base OMap Consensus Ext Raw TapTree Serialize SerializeFacts MapCodec SighashType V2Global
  V2Input V2Output V0Error ErrorText SpecErrorText.
Local Open Scope N_scope.

(** Two words over an alphabet, each followed by something outside of it. *)
Definition ends_word (P : byte -> Prop) (r : bytes) : Prop := match r with [] => True | c :: _ => ~ P c end.

Lemma word_inj (P : byte -> Prop) a : forall a' r r',
  Forall P a -> Forall P a' -> ends_word P r -> ends_word P r' -> a ++ r = a' ++ r' -> a = a' /\ r = r'.
Proof.
  induction a as [|x a IH]; intros [|y a'] r r' Ha Ha' Hr Hr' E; cbn [app] in E.
  - auto.
  - exfalso. subst r. cbn [ends_word] in Hr. apply Hr. now inversion Ha'.
  - exfalso. subst r'. cbn [ends_word] in Hr'. apply Hr'. now inversion Ha.
  - injection E as -> E. inversion Ha; inversion Ha'; subst.
    destruct (IH a' r r') as [-> ->]; auto.
Qed.

Definition is_digit (b : byte) : Prop := 48 <= b2n b <= 57.
Definition is_hex (b : byte) : Prop := 48 <= b2n b <= 57 \/ 97 <= b2n b <= 102.

(** ** Decimal *)

Definition decimal (bs : bytes) : N := fold_left (fun acc b => 10 * acc + (b2n b - 48)) bs 0.

Lemma decimal_snoc bs b : decimal (bs ++ [b]) = 10 * decimal bs + (b2n b - 48).
Proof. unfold decimal. rewrite fold_left_app. reflexivity. Qed.

Lemma dec_digits_ok f : forall n, n < 2 ^ N.of_nat f ->
  decimal (dec_digits f n) = n /\ Forall is_digit (dec_digits f n).
Proof.
  induction f as [|f IH]; intros n Hn.
  - change (2 ^ N.of_nat 0) with 1 in Hn. cbn. split; [lia|constructor].
  - rewrite Nat2N.inj_succ, N.pow_succ_r' in Hn. cbn [dec_digits]. rewrite decimal_snoc.
    assert (Hd : b2n (n2b (48 + n mod 10)) = 48 + n mod 10) by (apply b2n_n2b; lia).
    assert (D : Forall is_digit [n2b (48 + n mod 10)]) by (repeat constructor; rewrite Hd; lia).
    rewrite Hd. destruct (n / 10 =? 0) eqn:E.
    + split; [|exact D]. cbn [decimal fold_left]. lia.
    + destruct (IH (n / 10)) as [I1 I2]; [lia|]. split; [rewrite I1; lia|]. apply Forall_app; auto.
Qed.

Lemma dec_fuel n : n < 2 ^ N.of_nat (Datatypes.S (N.to_nat (N.log2 n))).
Proof.
  rewrite Nat2N.inj_succ, N2Nat.id. destruct (N.eq_dec n 0) as [->|H]; [reflexivity|].
  destruct (N.log2_spec n) as [_ H1]; [lia|exact H1].
Qed.
Lemma dec_text_value n : decimal (dec_text n) = n.
Proof. apply dec_digits_ok, dec_fuel. Qed.
Lemma dec_text_digits n : Forall is_digit (dec_text n).
Proof. apply dec_digits_ok, dec_fuel. Qed.
Lemma dec_text_inj a b : dec_text a = dec_text b -> a = b.
Proof. intros H. rewrite <- (dec_text_value a), <- (dec_text_value b). now rewrite H. Qed.
Lemma dec_text_nil n : dec_text n <> [].
Proof. unfold dec_text. cbn [dec_digits]. intros H. apply app_eq_nil in H as [_ H]. discriminate H. Qed.

Lemma dec_inj a b r s : ends_word is_digit r -> ends_word is_digit s ->
  dec_text a ++ r = dec_text b ++ s -> a = b /\ r = s.
Proof.
  intros Hr Hs H. apply (word_inj is_digit) in H as [H ->]; auto using dec_text_digits.
  split; [now apply dec_text_inj|reflexivity].
Qed.

(** ** Hexadecimal *)

Lemma hex_digit_code n : n < 16 -> b2n (hex_digit n) = if n <? 10 then 48 + n else 87 + n.
Proof. intros H. unfold hex_digit. destruct (n <? 10) eqn:E; apply b2n_n2b; lia. Qed.
Lemma hex_digit_hex n : n < 16 -> is_hex (hex_digit n).
Proof. intros H. unfold is_hex. rewrite hex_digit_code by exact H. destruct (n <? 10) eqn:E; lia. Qed.
Lemma hex_digit_inj a b : a < 16 -> b < 16 -> hex_digit a = hex_digit b -> a = b.
Proof.
  intros Ha Hb H. apply (f_equal b2n) in H. rewrite !hex_digit_code in H by assumption.
  destruct (a <? 10) eqn:E1, (b <? 10) eqn:E2; lia.
Qed.

Lemma hex_text_hex bs : Forall is_hex (hex_text bs).
Proof.
  induction bs as [|b bs IH]; [constructor|]. pose proof (b2n_lt b). cbn [hex_text flat_map app].
  constructor; [apply hex_digit_hex; lia|]. constructor; [apply hex_digit_hex; lia|exact IH].
Qed.
Lemma hex_text_inj a : forall b, hex_text a = hex_text b -> a = b.
Proof.
  induction a as [|x a IH]; intros [|y b] H; try discriminate H; [reflexivity|].
  pose proof (b2n_lt x) as Lx. pose proof (b2n_lt y) as Ly. cbn [hex_text flat_map app] in H. injection H as H1 H2 H3.
  apply hex_digit_inj in H1; [|lia|lia]. apply hex_digit_inj in H2; [|lia|lia].
  f_equal; [apply b2n_inj; lia|now apply IH].
Qed.
Lemma hex_inj a b r s : ends_word is_hex r -> ends_word is_hex s ->
  hex_text a ++ r = hex_text b ++ s -> a = b /\ r = s.
Proof.
  intros Hr Hs H. apply (word_inj is_hex) in H as [H ->]; auto using hex_text_hex.
  split; [now apply hex_text_inj|reflexivity].
Qed.

(** A key type, without a leading zero. *)
Lemma type_digits_hex n : n < 256 -> Forall is_hex (hex_digits 2 n).
Proof.
  intros H. cbn [hex_digits]. replace (n / 16 / 16 =? 0) with true by lia. cbn [app].
  destruct (n / 16 =? 0) eqn:E; cbn [app];
    repeat first [apply Forall_nil | apply Forall_cons; [apply hex_digit_hex; lia|]].
Qed.
Lemma type_digits_inj a b : a < 256 -> b < 256 -> hex_digits 2 a = hex_digits 2 b -> a = b.
Proof.
  intros Ha Hb. cbn [hex_digits].
  replace (a / 16 / 16 =? 0) with true by lia. replace (b / 16 / 16 =? 0) with true by lia.
  destruct (a / 16 =? 0) eqn:Ea, (b / 16 =? 0) eqn:Eb; cbn [app]; intros H; try discriminate H.
  - injection H as H1. apply hex_digit_inj in H1; lia.
  - injection H as H1 H2. apply hex_digit_inj in H1; [|lia|lia]. apply hex_digit_inj in H2; lia.
Qed.

Lemma key_text_inj a b : key_text a = key_text b -> a = b.
Proof.
  unfold key_text. intros H. apply app_inv_head in H.
  apply (word_inj is_hex) in H as [H1 H2]; auto using type_digits_hex, b2n_lt.
  2, 3: (cbn; unfold is_hex; cbn; lia).
  apply type_digits_inj in H1; [|apply b2n_lt|apply b2n_lt]. apply app_inv_head, hex_text_inj in H2.
  destruct a, b. cbn in *. f_equal; [now apply b2n_inj|assumption].
Qed.

(** ** Paths *)

Definition is_child (b : byte) : Prop := is_digit b \/ b = x27.
Lemma child_text_child n : Forall is_child (child_text n).
Proof.
  unfold child_text. destruct (n <? _).
  - eapply Forall_impl; [|apply dec_text_digits]. intros b H. now left.
  - apply Forall_app. split; [|repeat constructor; now right].
    eapply Forall_impl; [|apply dec_text_digits]. intros b H. now left.
Qed.
Lemma quote_no_digit : ~ is_digit x27.
Proof. unfold is_digit. cbn. lia. Qed.
Lemma child_text_inj a b : child_text a = child_text b -> a = b.
Proof.
  unfold child_text. destruct (a <? _) eqn:Ea, (b <? _) eqn:Eb; intros H.
  - now apply dec_text_inj.
  - exfalso. apply quote_no_digit. assert (In x27 (dec_text a)) as I by (rewrite H; apply in_or_app; right; now left).
    exact (proj1 (Forall_forall _ _) (dec_text_digits a) _ I).
  - exfalso. apply quote_no_digit. assert (In x27 (dec_text b)) as I by (rewrite <- H; apply in_or_app; right; now left).
    exact (proj1 (Forall_forall _ _) (dec_text_digits b) _ I).
  - apply app_inv_tail, dec_text_inj in H. lia.
Qed.
Lemma child_text_nil n : child_text n <> [].
Proof.
  unfold child_text. destruct (n <? _); [apply dec_text_nil|]. intros H. apply app_eq_nil in H as [_ H]. discriminate H.
Qed.

(** What follows a path is neither a digit, a quote nor a slash. *)
Definition ends_path (r : bytes) : Prop := match r with [] => True | c :: _ => ~ is_child c /\ c <> x2f end.
Lemma slash_no_child : ~ is_child x2f.
Proof. intros [H|H]; [unfold is_digit in H; cbn in H; lia|discriminate H]. Qed.
Lemma ends_path_word r : ends_path r -> ends_word is_child r.
Proof. destruct r; [exact (fun H => H)|intros [H _]; exact H]. Qed.

Lemma path_text_cons n l : path_text (n :: l) = child_text n ++ match l with [] => [] | _ => x2f :: path_text l end.
Proof. destruct l; [cbn; now rewrite app_nil_r|reflexivity]. Qed.

Lemma path_nil n l r s : ends_path r -> ends_path s -> r <> path_text (n :: l) ++ s.
Proof.
  intros Hr Hs H. rewrite path_text_cons in H. pose proof (child_text_child n) as F. pose proof (child_text_nil n) as Z.
  destruct (child_text n) as [|c w]; [now apply Z|]. subst r. cbn in Hr. inversion F. tauto.
Qed.

Lemma path_inj a : forall b r s, ends_path r -> ends_path s -> path_text a ++ r = path_text b ++ s -> a = b /\ r = s.
Proof.
  induction a as [|n a IH]; intros [|m b] r s Hr Hs H.
  - auto.
  - exfalso. exact (path_nil m b r s Hr Hs H).
  - exfalso. exact (path_nil n a s r Hs Hr (eq_sym H)).
  - rewrite !path_text_cons, <- !app_assoc in H. apply (word_inj is_child) in H as [H1 H2]; auto using child_text_child.
    + apply child_text_inj in H1 as ->. destruct a as [|n' a], b as [|m' b].
      * auto.
      * exfalso. cbn [app] in H2. subst r. cbn in Hr. tauto.
      * exfalso. cbn [app] in H2. subst s. cbn in Hs. tauto.
      * change ((x2f :: path_text (n' :: a)) ++ r) with (x2f :: (path_text (n' :: a) ++ r)) in H2.
        change ((x2f :: path_text (m' :: b)) ++ s) with (x2f :: (path_text (m' :: b) ++ s)) in H2. injection H2 as H2.
        destruct (IH (m' :: b) r s Hr Hs H2) as [-> ->]. auto.
    + destruct a; [now apply ends_path_word|]. exact slash_no_child.
    + destruct b; [now apply ends_path_word|]. exact slash_no_child.
Qed.

(** ** Slices *)

Lemma comma_no_digit : ~ is_digit x2c. Proof. unfold is_digit. cbn. lia. Qed.
Lemma bracket_no_digit : ~ is_digit x5d. Proof. unfold is_digit. cbn. lia. Qed.
Lemma debug_items_cons b l : debug_items (b :: l) = dec_text (b2n b) ++ match l with [] => [] | _ => x2c :: x20 :: debug_items l end.
Proof. destruct l; [cbn; now rewrite app_nil_r|reflexivity]. Qed.

Lemma debug_nil b l r s : debug_items (b :: l) ++ s <> x5d :: r.
Proof.
  rewrite debug_items_cons. pose proof (dec_text_digits (b2n b)) as F. pose proof (dec_text_nil (b2n b)) as Z.
  destruct (dec_text (b2n b)) as [|c w]; [now destruct Z|]. cbn [app]. intros H. injection H as -> _.
  apply bracket_no_digit. now inversion F.
Qed.
Lemma debug_items_inj a : forall b r s, debug_items a ++ x5d :: r = debug_items b ++ x5d :: s -> a = b /\ r = s.
Proof.
  induction a as [|n a IH]; intros [|m b] r s H.
  - injection H as ->. auto.
  - exfalso. exact (debug_nil _ _ _ _ (eq_sym H)).
  - exfalso. exact (debug_nil _ _ _ _ H).
  - rewrite !debug_items_cons, <- !app_assoc in H. apply dec_inj in H as [H1 H2].
    + apply b2n_inj in H1 as ->. destruct a as [|n' a], b as [|m' b]; try discriminate H2.
      * injection H2 as ->. auto.
      * change ((x2c :: x20 :: debug_items (n' :: a)) ++ x5d :: r) with (x2c :: x20 :: (debug_items (n' :: a) ++ x5d :: r)) in H2.
        change ((x2c :: x20 :: debug_items (m' :: b)) ++ x5d :: s) with (x2c :: x20 :: (debug_items (m' :: b) ++ x5d :: s)) in H2.
        injection H2 as H2. destruct (IH (m' :: b) r s H2) as [-> ->]. auto.
    + destruct a; [exact bracket_no_digit|exact comma_no_digit].
    + destruct b; [exact bracket_no_digit|exact comma_no_digit].
Qed.
Lemma debug_bytes_inj a b r s : debug_bytes a ++ r = debug_bytes b ++ s -> a = b /\ r = s.
Proof.
  unfold debug_bytes. change (str "[") with [x5b]. change (str "]") with [x5d]. rewrite <- !app_assoc. cbn [app].
  intros H. injection H as H. now apply debug_items_inj in H.
Qed.

(** ** Errors *)

(** Literals as lists of bytes. *)
Ltac literals H :=
  repeat match type of H with context [str ?s] => let v := eval vm_compute in (str s) in change (str s) with v in H end;
  cbn [app] in H.
(** Texts of different variants. *)
Ltac differ H := exfalso; literals H; discriminate H.

Lemma two_numbers a b c d m r : ends_word is_digit m -> m <> [] -> ends_word is_digit r ->
  dec_text a ++ m ++ dec_text b ++ r = dec_text c ++ m ++ dec_text d ++ r -> a = c /\ b = d.
Proof.
  intros Hm Zm Hr H. destruct m as [|x m]; [now destruct Zm|].
  apply dec_inj in H as [-> H]; [|exact Hm|exact Hm]. split; [reflexivity|]. apply app_inv_head in H.
  apply dec_inj in H as [H _]; auto.
Qed.
Lemma two_numbers_end a b c d m : ends_word is_digit m -> m <> [] ->
  dec_text a ++ m ++ dec_text b = dec_text c ++ m ++ dec_text d -> a = c /\ b = d.
Proof.
  intros Hm Zm H. apply (two_numbers a b c d m []); auto. exact Logic.I. now rewrite !app_nil_r.
Qed.
Ltac outside := cbn; unfold is_digit, is_hex, is_child, is_digit; cbn; lia.

(** All of the value's errors, up to what another text shows. *)
Lemma serr_text_inj a b : serr_text a = serr_text b ->
  same_value a b \/ exists n m, a = SUnsupportedVersion n /\ b = SUnsupportedVersion m.
Proof.
  intros H. destruct a, b; cbn [serr_text] in H; try (left; reflexivity); try (left; exact Logic.I); try differ H;
    try (right; do 2 eexists; split; reflexivity); left; cbn [same_value]; apply app_inv_head in H.
  - apply dec_text_inj in H as ->. reflexivity.
  - apply two_numbers_end in H as [-> ->]; [reflexivity|outside|discriminate].
  - apply two_numbers_end in H as [-> ->]; [reflexivity|outside|discriminate].
  - apply two_numbers_end in H as [-> ->]; [reflexivity|outside|discriminate].
Qed.

Section Inj.
Context `{C : Cfg}.

Lemma causes_det c : forall l m, causes c l -> causes c m -> l = m.
Proof.
  intros l m H. revert m. induction H as [|c l H IH]; intros m Hm; inversion Hm; subst; [reflexivity|].
  f_equal. now apply IH.
Qed.

Lemma causes_some c l : causes (Some c) l -> exists m, l = cause_text c :: m /\ causes (cause_source c) m.
Proof. intros H. inversion H. eauto. Qed.

Lemma value_report_inj a b l : value_report a l -> value_report b l -> same_value a b.
Proof.
  intros (m & Ha & ->) (m' & Hb & E). injection E as E1 <-. apply serr_text_inj in E1 as [E1|(n & n' & -> & ->)]; [exact E1|].
  cbn [serr_source] in Ha, Hb. apply causes_some in Ha as (k & -> & _). apply causes_some in Hb as (k' & E & _).
  injection E as E _. apply dec_text_inj in E as ->. reflexivity.
Qed.

(** The errors of the pairs of the three maps. *)
Definition global_pair (e : ierr) : Prop :=
  match e with IHashPreimage _ _ _ | IXPubKey0 _ | IVersion0 _ => False | IExcludedKey t => t = x00 | _ => True end.
Definition input_pair (e : ierr) : Prop :=
  match e with
  | IDuplicateKey _ | IDeser _ | IInvalidKeyDataEmpty _ | IInvalidKeyDataNotEmpty _ | IHashPreimage _ _ _
  | IKeyWrongLength _ _ | IValueWrongLength _ _ => True
  | _ => False
  end.
Definition output_pair (e : ierr) : Prop :=
  match e with
  | IDuplicateKey _ | IDeser _ | IInvalidKeyDataEmpty _ | IInvalidKeyDataNotEmpty _ | IValueWrongLength _ _ => True
  | _ => False
  end.

(** The variants whose causes matter. *)
Definition deeper (a b : ierr) : Prop :=
  (exists s t, a = IDeser s /\ b = IDeser t) \/ (exists h v k h' v' k', a = IHashPreimage h v k /\ b = IHashPreimage h' v' k').

Lemma wrong_length_inj a b c d w : ends_word is_digit w -> w <> [] ->
  dec_text a ++ w ++ dec_text b ++ str ")" = dec_text c ++ w ++ dec_text d ++ str ")" -> a = c /\ b = d.
Proof. intros Hw Z H. apply two_numbers in H; auto. outside. Qed.

Lemma global_text_inj a b : global_pair a -> global_pair b -> global_ierr_text a = global_ierr_text b ->
  same_pair a b \/ deeper a b.
Proof.
  intros Ga Gb H. destruct a, b; cbn [global_pair] in Ga, Gb; try destruct Ga; try destruct Gb; cbn [global_ierr_text] in H;
    try (left; reflexivity); try (left; exact Logic.I); try (right; left; do 2 eexists; split; reflexivity); try differ H;
    left; cbn [same_pair]; apply app_inv_head in H.
  - apply key_text_inj in H as ->. reflexivity.
  - apply key_text_inj in H as ->. reflexivity.
  - apply key_text_inj in H as ->. reflexivity.
  - apply two_numbers_end in H as [-> ->]; [reflexivity|outside|discriminate].
  - apply wrong_length_inj in H as [-> ->]; [reflexivity|outside|discriminate].
  - apply dec_text_inj in H as ->. reflexivity.
  - apply dec_text_inj in H as ->. reflexivity.
  - apply hex_inj in H as [H1 H2]; [|outside|outside]. apply app_inv_head in H2. apply path_inj in H2 as [H2 _].
    + destruct k, k0. cbn in H1, H2. now subst.
    + cbn. split; [intros [Q|Q]; [unfold is_digit in Q; cbn in Q; lia|discriminate Q]|discriminate].
    + cbn. split; [intros [Q|Q]; [unfold is_digit in Q; cbn in Q; lia|discriminate Q]|discriminate].
Qed.

Lemma input_text_inj a b : input_pair a -> input_pair b -> input_ierr_text a = input_ierr_text b ->
  same_pair a b \/ deeper a b.
Proof.
  intros Ga Gb H. destruct a, b; cbn [input_pair] in Ga, Gb; try destruct Ga; try destruct Gb; cbn [input_ierr_text] in H;
    try (right; left; do 2 eexists; split; reflexivity); try (right; right; do 6 eexists; split; reflexivity); try differ H;
    left; cbn [same_pair]; apply app_inv_head in H.
  - apply key_text_inj in H as ->. reflexivity.
  - apply key_text_inj in H as ->. reflexivity.
  - apply key_text_inj in H as ->. reflexivity.
  - apply wrong_length_inj in H as [-> ->]; [reflexivity|outside|discriminate].
  - apply wrong_length_inj in H as [-> ->]; [reflexivity|outside|discriminate].
Qed.

Lemma output_text_inj a b : output_pair a -> output_pair b -> output_ierr_text a = output_ierr_text b ->
  same_pair a b \/ deeper a b.
Proof.
  intros Ga Gb H. destruct a, b; cbn [output_pair] in Ga, Gb; try destruct Ga; try destruct Gb; cbn [output_ierr_text] in H;
    try (right; left; do 2 eexists; split; reflexivity); try differ H;
    left; cbn [same_pair]; apply app_inv_head in H.
  - apply key_text_inj in H as ->. reflexivity.
  - apply key_text_inj in H as ->. reflexivity.
  - apply key_text_inj in H as ->. reflexivity.
  - apply wrong_length_inj in H as [-> ->]; [reflexivity|outside|discriminate].
Qed.

Lemma value_causes_inj s t l : causes (Some (CValue s)) l -> causes (Some (CValue t)) l -> same_value s t.
Proof.
  intros H1 H2. apply causes_some in H1 as (m & -> & H1). apply causes_some in H2 as (m' & E & H2).
  apply (value_report_inj s t (serr_text s :: m)); [exists m; auto|]. exists m'. auto.
Qed.

Lemma preimage_text_inj h v k h' v' k' : preimage_text h v k = preimage_text h' v' k' -> v = v' /\ k = k'.
Proof.
  unfold preimage_text, hash_type_text. intros H. do 3 apply app_inv_head in H.
  apply hex_inj in H as [-> H]; [|outside|outside]. apply app_inv_head, hex_text_inj in H as ->. auto.
Qed.

(** A pair's error and its causes. *)
Lemma pair_causes_inj (ofp : ierr -> cause) (text : ierr -> bytes) (src : ierr -> option cause) (P : ierr -> Prop) a b l :
  (forall e, cause_text (ofp e) = text e) -> (forall e, cause_source (ofp e) = src e) ->
  (forall s, src (IDeser s) = Some (CValue s)) ->
  (forall h v k, P (IHashPreimage h v k) -> src (IHashPreimage h v k) = Some (CPreimage h v k)) ->
  (P a -> P b -> text a = text b -> same_pair a b \/ deeper a b) -> P a -> P b ->
  causes (Some (ofp a)) l -> causes (Some (ofp b)) l -> same_pair a b.
Proof.
  intros T S V Q J Pa Pb H1 H2. apply causes_some in H1 as (m & -> & H1). apply causes_some in H2 as (m' & E & H2).
  injection E as E <-. rewrite S in H1, H2. rewrite !T in E.
  destruct (J Pa Pb E) as [D|[(s & t & -> & ->)|(h & v & k & h' & v' & k' & -> & ->)]]; [exact D| |].
  - rewrite V in H1, H2. exact (value_causes_inj _ _ _ H1 H2).
  - rewrite Q in H1, H2 by assumption. apply causes_some in H1 as (n & -> & _). apply causes_some in H2 as (n' & E2 & _).
    apply (f_equal (hd [])) in E2. exact (preimage_text_inj h v k h' v' k' E2).
Qed.

Lemma global_report_inj a b l :
  (forall e, a = GDInsertPair e -> global_pair e) -> (forall e, b = GDInsertPair e -> global_pair e) ->
  global_report a l -> global_report b l -> same_global a b.
Proof.
  intros Ga Gb (m & Ha & ->) (m' & Hb & E). injection E as E1 <-.
  destruct a, b; cbn [gderr_text] in E1; try reflexivity; try differ E1; cbn [gderr_source same_global] in *.
  - apply (pair_causes_inj CGlobalPair global_ierr_text global_ierr_source global_pair _ _ m); auto using global_text_inj.
    intros h v k [].
  - exact (value_causes_inj _ _ _ Ha Hb).
  - apply app_inv_head, dec_text_inj in E1 as ->. reflexivity.
  - apply app_inv_head, dec_text_inj in E1 as ->. reflexivity.
Qed.

Lemma input_report_inj a b l :
  (forall e, a = IDInsertPair e -> input_pair e) -> (forall e, b = IDInsertPair e -> input_pair e) ->
  input_report a l -> input_report b l -> same_input a b.
Proof.
  intros Ga Gb (m & Ha & ->) (m' & Hb & E). injection E as E1 <-.
  destruct a, b; cbn [iderr_text] in E1; try reflexivity; try differ E1; cbn [iderr_source same_input] in *.
  - apply (pair_causes_inj CInputPair input_ierr_text input_ierr_source input_pair _ _ m); auto using input_text_inj.
  - exact (value_causes_inj _ _ _ Ha Hb).
Qed.

Lemma output_report_inj a b l :
  (forall e, a = ODInsertPair e -> output_pair e) -> (forall e, b = ODInsertPair e -> output_pair e) ->
  output_report a l -> output_report b l -> same_output a b.
Proof.
  intros Ga Gb (m & Ha & ->) (m' & Hb & E). injection E as E1 <-.
  destruct a, b; cbn [oderr_text] in E1; try reflexivity; try differ E1; cbn [oderr_source same_output] in *.
  - apply (pair_causes_inj COutputPair output_ierr_text output_ierr_source output_pair _ _ m); auto using output_text_inj.
    intros h v k [].
  - exact (value_causes_inj _ _ _ Ha Hb).
Qed.

(** Version 0. *)
Definition decode0_err (e : err0) : Prop :=
  match e with
  | E0UnexpectedUnsignedTx _ _ | E0CombineInconsistentKeySources _ => False
  | E0XPubKey n => n <= 4
  | E0Version n => n <= 1
  | E0ExcludedKey t => 2 <= b2n t <= 18
  | _ => True
  end.

Lemma in_name_inj a b : 2 <= b2n a <= 18 -> 2 <= b2n b <= 18 -> in_name a = in_name b -> a = b.
Proof.
  intros Ha Hb. destruct a; try (exfalso; revert Ha; vm_compute; intros [? ?]; congruence).
  all: destruct b; try reflexivity; try (exfalso; revert Hb; vm_compute; intros [? ?]; congruence).
  all: intros H; exfalso; cbn in H; literals H; discriminate H.
Qed.

Lemma err0_text_inj txid_text xpub_text a b : decode0_err a -> decode0_err b ->
  err0_text txid_text xpub_text a = err0_text txid_text xpub_text b -> same0 a b.
Proof.
  intros Ga Gb H. destruct a, b; cbn [decode0_err] in Ga, Gb; try (exfalso; exact Ga); try (exfalso; exact Gb); cbn [err0_text] in H;
    try reflexivity; try exact Logic.I; try differ H; cbn [same0]; apply app_inv_head in H.
  - apply key_text_inj in H as ->. reflexivity.
  - apply key_text_inj in H as ->. reflexivity.
  - apply dec_text_inj in H as ->. reflexivity.
  - apply debug_bytes_inj in H as [-> H]. apply app_inv_head in H.
    destruct ht, ht0; cbn [hash_name] in H; try differ H; do 2 apply app_inv_head in H;
      apply (f_equal (fun l => l ++ [])) in H; apply debug_bytes_inj in H as [-> _]; reflexivity.
  - assert (E : message = message0); [|now subst].
    assert (Q : forall n, n <= 4 -> n = 0 \/ n = 1 \/ n = 2 \/ n = 3 \/ n = 4) by lia.
    destruct (Q message) as [->|[->|[->|[->| ->]]]], (Q message0) as [->|[->|[->|[->| ->]]]]; try lia; try reflexivity;
      cbn [xpub0_text] in H; differ H.
  - assert (E : message = message0); [|now subst].
    assert (Q : forall n, n <= 1 -> n = 0 \/ n = 1) by lia.
    destruct (Q message) as [->| ->], (Q message0) as [->| ->]; try lia; try reflexivity;
      cbn [version0_text] in H; differ H.
  - apply in_name_inj in H as ->; auto.
Qed.

End Inj.

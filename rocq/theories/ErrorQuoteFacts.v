(** Proofs about what texts of errors show of the refused pair. *)
From Coq Require Import Strings.String.
From Verif Require Import Base OMap Consensus Ext Raw TapTree Serialize SerializeFacts MapCodec SighashType V2Global V2Input V2Output V2Psbt
  V0Error V0Psbt SpecErrors DecodeErrorFacts ErrorText SpecErrorText ErrorTextFacts SpecErrorQuote.
Local Open Scope N_scope.

(** ** Numbers *)

Lemma dec_digit_ok x : x < 10 -> dec_digit (n2b (48 + x)) x.
Proof.
  intros H. assert (G : In x [0;1;2;3;4;5;6;7;8;9]) by (cbn; lia).
  cbn [In] in G. repeat (destruct G as [<-|G]; [reflexivity|]). destruct G.
Qed.
Lemma low_digit_ok x : x < 16 -> low_digit (hex_digit x) x.
Proof.
  intros H. assert (G : In x [0;1;2;3;4;5;6;7;8;9;10;11;12;13;14;15]) by (cbn; lia).
  cbn [In] in G. repeat (destruct G as [<-|G]; [reflexivity|]). destruct G.
Qed.

Lemma dec_digits_numeral f : forall n, n < 2 ^ N.of_nat f -> f <> O -> in_decimal (dec_digits f n) n.
Proof.
  induction f as [|f IH]; intros n Hn Hf; [now destruct Hf|].
  rewrite Nat2N.inj_succ, N.pow_succ_r' in Hn. cbn [dec_digits].
  destruct (n / 10 =? 0) eqn:E.
  - cbn [app]. replace n with (n mod 10) at 2 by (apply N.eqb_eq in E; lia). apply NOne, dec_digit_ok. lia.
  - apply N.eqb_neq in E. replace n with (10 * (n / 10) + n mod 10) at 3 by lia.
    apply NMore; [|exact E|apply dec_digit_ok; lia].
    apply IH; [lia|]. intros ->. cbn in Hn. lia.
Qed.
Lemma dec_text_shows n : in_decimal (dec_text n) n.
Proof. apply dec_digits_numeral; [apply dec_fuel|discriminate]. Qed.

Lemma type_shows b : numeral 16 low_digit (hex_digits 2 (b2n b)) (b2n b).
Proof.
  pose proof (b2n_lt b) as H. revert H. generalize (b2n b). intros n H. cbn [hex_digits].
  destruct (n / 16 =? 0) eqn:E.
  - cbn [app]. replace n with (n mod 16) at 2 by (apply N.eqb_eq in E; lia). apply NOne, low_digit_ok. lia.
  - apply N.eqb_neq in E. replace (n / 16 / 16 =? 0) with true by (symmetry; apply N.eqb_eq; lia).
    replace n with (16 * (n / 16) + n mod 16) at 3 by lia.
    apply NMore; [|exact E|apply low_digit_ok; lia]. cbn [app].
    replace (n / 16) with ((n / 16) mod 16) at 2 by lia. apply NOne, low_digit_ok. lia.
Qed.
Lemma hex_shows bs : in_hex (hex_text bs) bs.
Proof.
  induction bs as [|b bs IH]; cbn [hex_text flat_map app]; [constructor|].
  pose proof (b2n_lt b). apply (XCons _ (b2n b / 16) _ (b2n b mod 16)); [apply low_digit_ok; lia|apply low_digit_ok; lia|lia|exact IH].
Qed.
Lemma key_shows k : shows_key (key_text k) k.
Proof. exists (hex_digits 2 (b2n (k_type k))), (hex_text (k_data k)). split; [apply type_shows|]. split; [apply hex_shows|reflexivity]. Qed.

Lemma debug_shows bs : in_list (debug_bytes bs) bs.
Proof.
  exists (map (fun b => dec_text (b2n b)) bs), (debug_items bs). split; [|split; [|reflexivity]].
  - induction bs; cbn [map]; constructor; [apply dec_text_shows|assumption].
  - induction bs as [|b bs IH]; [reflexivity|]. destruct bs as [|c bs].
    + cbn. now rewrite app_nil_r.
    + cbn [map joined flat_map debug_items] in *. now rewrite IH.
Qed.

Lemma step_shows n : shows_step (child_text n) n.
Proof.
  unfold child_text. destruct (n <? 2147483648) eqn:E.
  - left. apply N.ltb_lt in E. split; [exact E|apply dec_text_shows].
  - right. apply N.ltb_ge in E. exists (dec_text (n - 2147483648)), (n - 2147483648).
    split; [lia|]. split; [apply dec_text_shows|reflexivity].
Qed.
Lemma origin_shows s : shows_origin (hex_text (ks_fp s) ++ str ", " ++ path_text (ks_path s)) s.
Proof.
  exists (hex_text (ks_fp s)), (map child_text (ks_path s)), (path_text (ks_path s)).
  split; [apply hex_shows|]. split; [|split; [|reflexivity]].
  - induction (ks_path s); cbn [map]; constructor; [apply step_shows|assumption].
  - induction (ks_path s) as [|n l IH]; [reflexivity|]. destruct l as [|m l].
    + cbn. now rewrite app_nil_r.
    + cbn [map joined flat_map path_text] in *. now rewrite IH.
Qed.

Lemma lengths_show before between after got expected :
  shows_lengths before between after got expected (str before ++ dec_text got ++ str between ++ dec_text expected ++ str after).
Proof. exists (dec_text got), (dec_text expected). split; [apply dec_text_shows|]. split; [apply dec_text_shows|reflexivity]. Qed.

(** ** Pairs *)

Ltac breakup :=
  repeat match goal with
    | H : _ \/ _ |- _ => destruct H
    | H : _ /\ _ |- _ => destruct H
    | H : exists _, _ |- _ => destruct H
    end.

Section Pairs.
Context `{X : Ext} {L : ExtLaws X} `{C : Cfg}.

Lemma input_quotes bs e : input_decode bs = Err (IDInsertPair e) ->
  exists l p r, bs = flat_map ser_pair l ++ ser_pair p ++ r /\ input_words p (input_ierr_text e)
    /\ match e with IHashPreimage _ v h => v = p_value p /\ h = k_data (p_key p) | _ => True end.
Proof.
  intros H. apply input_decode_says in H. cbn [input_says] in H. destruct H as (l & p & r & -> & R).
  exists l, p, r. split; [reflexivity|].
  assert (S0 : match input_shape feat_sp (k_type (p_key p)) with
               | HVersion | HCount | HXpub | HExcluded | HTx0 | HXpub0 | HVersion0 | HProp true | HFixed _ | HSilent _ => False
               | HShare _ n => In (b2n (k_type (p_key p)), n) input_sizes /\ In (b2n (k_type (p_key p))) [29; 30]
               | HPreimage _ _ _ => In (b2n (k_type (p_key p))) [10; 11; 12; 13]
               | _ => True end).
  { clear. destruct feat_sp, (k_type (p_key p)); cbn; auto 6. }
  revert S0 R. generalize (input_shape feat_sp (k_type (p_key p))). intros sh S0 R. unfold refused in R. cbv zeta in R.
  destruct sh; try (exfalso; exact S0); try (destruct own; [exfalso; exact S0|]); breakup; try discriminate; subst e; cbn [input_ierr_text].
  all: split; [|try exact I; auto].
  all: try (left; first [ apply TAgain, key_shows | apply TEmpty; [assumption|apply key_shows]
                        | apply TNotEmpty; [assumption|apply key_shows] | apply TValue ]).
  - right. right. right. split; [exact S0|reflexivity].
  - right. right. left. split; [assumption|]. apply (lengths_show "key wrong length (got: " ", expected: " ")").
  - right. left. exists n. split; [assumption|]. apply (lengths_show "value wrong length (got: " ", expected: " ")").
Qed.

Lemma output_quotes bs e : output_decode bs = Err (ODInsertPair e) ->
  exists l p r, bs = flat_map ser_pair l ++ ser_pair p ++ r /\ output_words p (output_ierr_text e).
Proof.
  intros H. apply output_decode_says in H. cbn [output_says] in H. destruct H as (l & p & r & -> & R).
  exists l, p, r. split; [reflexivity|].
  assert (S0 : match output_shape feat_sp (k_type (p_key p)) with
               | HVersion | HCount | HXpub | HExcluded | HTx0 | HXpub0 | HVersion0 | HProp true | HFixed _ | HShare _ _ | HPreimage _ _ _ => False
               | HSilent n => In (b2n (k_type (p_key p)), n) output_sizes
               | _ => True end).
  { clear. destruct feat_sp, (k_type (p_key p)); cbn; auto 6. }
  revert S0 R. generalize (output_shape feat_sp (k_type (p_key p))). intros sh S0 R. unfold refused in R. cbv zeta in R.
  destruct sh; try (exfalso; exact S0); try (destruct own; [exfalso; exact S0|]); breakup; try discriminate; subst e; cbn [output_ierr_text].
  all: try (left; first [ apply TAgain, key_shows | apply TEmpty; [assumption|apply key_shows]
                        | apply TNotEmpty; [assumption|apply key_shows] | apply TValue ]).
  right. exists n. split; [assumption|]. apply (lengths_show "value wrong length (got: " ", expected: " ")").
Qed.

Lemma global_quotes bs e : global_decode bs = Err (GDInsertPair e) ->
  exists l p r, bs = flat_map ser_pair l ++ ser_pair p ++ r /\ global_words l p (global_ierr_text e).
Proof.
  intros H. apply global_decode_says in H. cbn [global_says] in H. destruct H as (l & p & r & -> & R).
  exists l, p, r. split; [reflexivity|].
  assert (S0 : match global_shape feat_sp (k_type (p_key p)) with
               | HPreimage _ _ _ | HTx0 | HXpub0 | HVersion0 | HSilent _ | HValue _ | HPlace _ | HMap _ _ | HProp false => False
               | HExcluded => k_type (p_key p) = x00
               | HXpub => k_type (p_key p) = x01
               | HVersion => k_type (p_key p) = xfb
               | HProp true => k_type (p_key p) = xfc
               | HCount => In (b2n (k_type (p_key p))) [4; 5]
               | HFixed n => In (b2n (k_type (p_key p)), n) global_sizes
               | HShare _ n => In (b2n (k_type (p_key p)), n) global_sizes /\ In (b2n (k_type (p_key p))) [7; 8]
               | _ => True end).
  { clear. destruct feat_sp, (k_type (p_key p)); cbn; auto 10. }
  revert S0 R. generalize (global_shape feat_sp (k_type (p_key p))). intros sh S0 R. unfold refused in R. cbv zeta in R.
  destruct sh; try (exfalso; exact S0); try (destruct own; [|exfalso; exact S0]); breakup; try discriminate; subst e; cbn [global_ierr_text].
  all: try (apply GPair; first [ apply TAgain, key_shows | apply TEmpty; [assumption|apply key_shows]
                        | apply TNotEmpty; [assumption|apply key_shows] | apply TValue ]).
  - apply GScanKey. split; [assumption|]. apply (lengths_show "key wrong length (got: " ", expected: " ")").
  - apply GSize. exists n. split; [assumption|]. rewrite <- (app_nil_r (dec_text n)).
    apply (lengths_show "value (keyvalue pair) wrong length (got, want) " " " "").
  - apply GSize. exists n. split; [assumption|]. rewrite <- (app_nil_r (dec_text n)).
    apply (lengths_show "value (keyvalue pair) wrong length (got, want) " " " "").
  - apply GSize. exists 4. split; [rewrite S0; cbn; auto 10|]. rewrite <- (app_nil_r (dec_text 4)).
    apply (lengths_show "value (keyvalue pair) wrong length (got, want) " " " "").
  - apply (GVersion _ _ x); [now rewrite S0| |apply dec_text_shows].
    match goal with E : p_value p = le_enc 4 x |- _ => rewrite E end. apply le_dec_enc. unfold U32 in *. lia.
  - now apply GCount.
  - apply GXpubKey. now rewrite S0.
  - apply GXpubEmpty; [now rewrite S0|assumption|apply key_shows].
  - apply GXpubFingerprint; [now rewrite S0|lia].
  - apply GXpubPath; [now rewrite S0|assumption|apply dec_text_shows].
  - match goal with E : earlier _ _ _ |- _ => destruct E as (q & Iq & Tq & _ & Vq) end.
    replace (hex_text (ks_fp x0) ++ str ", " ++ path_text (ks_path x0) ++ str ")")
      with ((hex_text (ks_fp x0) ++ str ", " ++ path_text (ks_path x0)) ++ str ")") by now rewrite <- !app_assoc.
    apply (GXpubAgain _ _ q x0); [now rewrite S0|exact Iq|now rewrite Tq, S0|exact Vq|apply origin_shows].
  - apply GProprietary. now rewrite S0.
  - rewrite S0. apply GExcluded. now rewrite S0.
Qed.

(** Version 0. *)
Definition shown0 (e : err0) : Prop :=
  match e with E0InvalidKey _ | E0DuplicateKey _ | E0InvalidPreimageHashPair _ _ _ => True | _ => False end.

Lemma map0_quotes txid_text xpub_text sh bs e : shown0 e ->
  (forall t, match sh t with
             | HCount | HXpub | HShare _ _ | HFixed _ | HSilent _ | HVersion | HProp true => False
             | HPreimage _ _ ht => exists name, In (b2n t, name) hash_names /\ hash_name ht = str name
             | _ => True end) ->
  map0_says sh bs e ->
  exists l p r, bs = flat_map ser_pair l ++ ser_pair p ++ r /\ words0 p (err0_text txid_text xpub_text e).
Proof.
  intros W S0 [(x & (l & p & r & -> & R) & M)|(s & _ & ->)]; [|destruct s; exfalso; exact W].
  exists l, p, r. split; [reflexivity|]. specialize (S0 (k_type (p_key p))).
  revert S0 R. generalize (sh (k_type (p_key p))). intros f S0 R. unfold refused in R. cbv zeta in R.
  destruct f; try (exfalso; exact S0); try (destruct own; [exfalso; exact S0|]); breakup; try discriminate; subst x; cbn [means0] in M;
    try match type of M with _ /\ _ => destruct M as [M0 M] end; subst e; cbn [err0_text];
    try (exfalso; exact W); try (exfalso; destruct x0; exact W); try (exfalso; destruct x; exact W); try (exfalso; destruct x1; exact W);
    try first [apply WKey, key_shows|apply WAgain, key_shows].
  all: try match goal with N : hash_name _ = _ |- _ => rewrite N end.
  all: try (apply WPreimage; [assumption|apply debug_shows|apply debug_shows]).
Qed.

Lemma deserialize0_quotes txid_text xpub_text bs e : psbt0_deserialize bs = Err e -> shown0 e ->
  exists a p r, bs = a ++ ser_pair p ++ r /\ words0 p (err0_text txid_text xpub_text e).
Proof.
  intros H W. apply deserialize0_says in H.
  destruct H as [[-> _]|[[-> _]|[H|[H|[H|H]]]]]; try (exfalso; exact W).
  - destruct H as (d & d' & -> & _ & [H|[-> _]]); [|exfalso; exact W].
    apply (map0_quotes txid_text xpub_text) in H as (l & p & r & -> & Q); [|exact W|intros []; exact Logic.I].
    exists ([x70; x73; x62; x74; xff] ++ flat_map ser_pair l), p, (r ++ d'). split; [now rewrite <- !app_assoc|exact Q].
  - destruct H as (lg & r & t & _ & _ & -> & _). exfalso; exact W.
  - destruct H as (lg & lis & d & t & -> & _ & _ & H).
    apply (map0_quotes txid_text xpub_text) in H as (l & p & r & -> & Q); [|exact W|].
    2:{ intros []; try exact Logic.I; eexists; (split; [|reflexivity]); cbn; auto 6. }
    exists ([x70; x73; x62; x74; xff] ++ map_bytes lg ++ concat (map map_bytes lis) ++ flat_map ser_pair l), p, r.
    split; [now rewrite <- !app_assoc|exact Q].
  - destruct H as (lg & lis & los & d & t & -> & _ & _ & _ & H).
    apply (map0_quotes txid_text xpub_text) in H as (l & p & r & -> & Q); [|exact W|intros []; exact Logic.I].
    exists ([x70; x73; x62; x74; xff] ++ map_bytes lg ++ concat (map map_bytes lis) ++ concat (map map_bytes los) ++ flat_map ser_pair l), p, r.
    split; [now rewrite <- !app_assoc|exact Q].
Qed.

Definition numbered0 (e : err0) : Prop := match e with E0Version _ | E0XPubKey _ => True | _ => False end.

Lemma map0_numbers sh bs e : numbered0 e -> map0_says sh bs e ->
  exists l p r x, bs = flat_map ser_pair l ++ ser_pair p ++ r /\ refused (sh (k_type (p_key p))) l p x /\ means0 x e
    /\ match sh (k_type (p_key p)) with HVersion0 | HXpub0 => True | _ => False end.
Proof.
  intros W [(x & (l & p & r & -> & R) & M)|(s & _ & ->)]; [|destruct s; exfalso; exact W].
  exists l, p, r, x. split; [reflexivity|]. split; [exact R|]. split; [exact M|]. revert R. generalize (sh (k_type (p_key p))). intros f R.
  unfold refused in R. cbv zeta in R.
  destruct f; try exact Logic.I; try destruct own; breakup; try discriminate; subst x; cbn [means0] in M; try exact M; subst e;
    try exact W; match type of W with numbered0 (err0_of_serr ?s) => destruct s; exact W end.
Qed.
Lemma deserialize0_numbers txid_text xpub_text bs e : psbt0_deserialize bs = Err e -> numbered0 e ->
  exists l p r, bs = [x70; x73; x62; x74; xff] ++ flat_map ser_pair l ++ ser_pair p ++ r /\ global_words0 l p (err0_text txid_text xpub_text e).
Proof.
  intros H W. apply deserialize0_says in H.
  destruct H as [[-> _]|[[-> _]|[H|[H|[H|H]]]]]; try (exfalso; exact W).
  - destruct H as (d & d' & -> & _ & [H|[-> _]]); [|exfalso; exact W].
    apply (map0_numbers _ _ _ W) in H as (l & p & r & x & -> & R & M & K).
    exists l, p, (r ++ d'). split; [now rewrite <- !app_assoc|].
    assert (S0 : match global0_shape (k_type (p_key p)) with HVersion0 => k_type (p_key p) = xfb | HXpub0 => k_type (p_key p) = x01 | _ => True end).
    { clear. destruct (k_type (p_key p)); cbn; auto. }
    revert S0 R K. generalize (global0_shape (k_type (p_key p))). intros f S0 R K. unfold refused in R. cbv zeta in R.
    destruct f; try (exfalso; exact K); breakup; subst x; cbn [means0] in M; try match type of M with _ /\ _ => destruct M as [_ M] end; subst e; try (exfalso; exact W).
    + now apply WXpubEmpty; [rewrite S0|].
    + now apply WXpubKey; [rewrite S0| |].
    + apply WXpubLength; [now rewrite S0|now left].
    + apply WXpubLength; [now rewrite S0|now right].
    + match goal with E : earlier _ _ _ |- _ => destruct E as (q & Iq & Tq & Vq) end.
      eapply (WXpubAgain _ _ q); [now rewrite S0|exact Iq|now rewrite Tq, S0|exact Vq|assumption].
    + now apply WLength; [rewrite S0| |].
    + match goal with E : p_value p = le_enc 4 ?n |- _ =>
        apply WVersion; [now rewrite S0|assumption|now rewrite E|rewrite E, le_dec_enc by (unfold U32 in *; lia); lia] end.
  - destruct H as (lg & r & t & _ & _ & -> & _). exfalso; exact W.
  - destruct H as (lg & lis & d & t & -> & _ & _ & H). apply (map0_numbers _ _ _ W) in H as (l & p & r & x & _ & _ & _ & K).
    exfalso. destruct (k_type (p_key p)); exact K.
  - destruct H as (lg & lis & los & d & t & -> & _ & _ & _ & H). apply (map0_numbers _ _ _ W) in H as (l & p & r & x & _ & _ & _ & K).
    exfalso. destruct (k_type (p_key p)); exact K.
Qed.

Lemma deserialize0_whole txid_text xpub_text bs e : psbt0_deserialize bs = Err e ->
  match e with E0InvalidMagic | E0InvalidSeparator | E0MustHaveUnsignedTx | E0UnsignedTxHasScriptSigs => True | _ => False end ->
  whole_words0 bs (err0_text txid_text xpub_text e).
Proof.
  intros H W. apply deserialize0_says in H.
  assert (N : forall sh d, ~ map0_says sh d e).
  { intros sh d [(x & _ & M)|(s & _ & ->)]; [|destruct s; exact W].
    destruct x; cbn [means0] in M; try exact M;
      try match type of M with _ /\ _ => destruct M as [_ M] end; rewrite M in W; try exact W; match type of W with context [err0_of_serr ?s] => destruct s; exact W end. }
  destruct H as [[-> H]|[[-> (t & H & K)]|[H|[H|[H|H]]]]].
  - now apply WMagic.
  - now apply (WSeparator _ t).
  - destruct H as (d & d' & -> & _ & [H|[-> (lg & r & -> & K)]]); [destruct (N _ _ H)|].
    apply (WNoTx _ lg (r ++ d')); [now rewrite <- !app_assoc|exact K].
  - destruct H as (lg & r & t & -> & T & -> & i & I & K). now apply (WScriptSig _ lg r t i).
  - destruct H as (lg & lis & d & t & _ & _ & _ & H). destruct (N _ _ H).
  - destruct H as (lg & lis & los & d & t & _ & _ & _ & _ & H). destruct (N _ _ H).
Qed.
End Pairs.

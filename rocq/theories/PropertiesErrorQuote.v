(** C138: what the text of a decoding error shows is in the bytes. *)
From Coq Require Import Strings.String.
From Verif Require Import Base OMap Consensus Ext ExtInstance Raw TapTree Serialize MapCodec SighashType V2Global V2Input V2Output V2Psbt
  V0Error V0Psbt SpecErrors DecodeErrorFacts ErrorText SpecErrorText SpecErrorQuote ErrorQuoteFacts
  SpecCombine0 V0CombineFacts SpecCombineErr CombineErrFacts PropertiesV2Combine PropertiesV0Combine SampleV2 SampleV0.
Local Open Scope N_scope.

(** Used by the examples only; the theorems bind their own. *)
#[local] Existing Instance toy | 100.
#[local] Instance ex_cfg : Cfg | 100 := cfg_of false false.

(** ** The readings of the texts are unique, so that they say something *)

Lemma digit_inj s c x y : NoDup (str s) -> digit_in s c x -> digit_in s c y -> x = y.
Proof.
  intros N H H'. unfold digit_in in *. apply N2Nat.inj. apply (proj1 (NoDup_nth_error (str s)) N).
  - apply nth_error_Some. congruence.
  - congruence.
Qed.
Lemma dec_nodup : NoDup (str "0123456789").
Proof. cbn. repeat (constructor; [cbn; intuition discriminate|]). constructor. Qed.
Lemma low_nodup : NoDup (str "0123456789abcdef").
Proof. cbn. repeat (constructor; [cbn; intuition discriminate|]). constructor. Qed.

Lemma numeral_nil base digit n : ~ numeral base digit [] n.
Proof. intros H. inversion H. destruct s; discriminate. Qed.
Lemma numeral_unique base (digit : byte -> N -> Prop) : (forall c x y, digit c x -> digit c y -> x = y) ->
  forall t n, numeral base digit t n -> forall m, numeral base digit t m -> n = m.
Proof.
  intros D t n H. induction H as [c x H|s n c x H IH Hn Hx]; intros m G.
  - inversion G as [c' x' H' E|s' n' c' x' H' Hn' Hx' E]; subst; [eauto|].
    destruct s' as [|? [|]]; try discriminate E. destruct (numeral_nil _ _ _ H').
  - inversion G as [c' x' H' E|s' n' c' x' H' Hn' Hx' E]; subst.
    + destruct s as [|? [|]]; try discriminate E. destruct (numeral_nil _ _ _ H).
    + apply app_inj_tail in E as [-> ->]. rewrite (IH _ H'), (D _ _ _ Hx Hx'). reflexivity.
Qed.

Theorem C138_decimal : forall t n m, in_decimal t n -> in_decimal t m -> n = m.
Proof. intros t n m H G. revert G. apply (numeral_unique 10 dec_digit); [intros c x y; apply digit_inj, dec_nodup|exact H]. Qed.
Print Assumptions C138_decimal.

Theorem C138_hex : forall t a b, in_hex t a -> in_hex t b -> a = b.
Proof.
  intros t a b H. revert b. induction H as [|u x v y s c t Hu Hv E _ IH]; intros b G; inversion G; subst; [reflexivity|].
  f_equal; [|now apply IH]. apply b2n_inj. rewrite E.
  match goal with
  | U : low_digit u ?x', V : low_digit v ?y', F : b2n _ = _ |- _ =>
      rewrite F, (digit_inj _ _ _ _ low_nodup Hu U), (digit_inj _ _ _ _ low_nodup Hv V)
  end. reflexivity.
Qed.
Print Assumptions C138_hex.

Example C138_numbers : in_decimal (str "4023") 4023 /\ in_hex (str "00ff1a") [x00; xff; x1a] /\ shows_key (str "type: 0xfc, key: 0b") (Key xfc [x0b]).
Proof.
  split; [exact (dec_text_shows 4023)|]. split; [exact (hex_shows [x00; xff; x1a])|exact (key_shows (Key xfc [x0b]))].
Qed.

(** ** Version 2 *)

Theorem C138_global : forall (X : Ext) (L : ExtLaws X) (C : Cfg) bs e,
  global_decode bs = Err (GDInsertPair e) ->
  exists l p r, bs = flat_map ser_pair l ++ ser_pair p ++ r /\ global_words l p (global_ierr_text e).
Proof. intros X L C bs e. apply global_quotes. Qed.
Print Assumptions C138_global.

(** For a preimage the third text of the report shows it, and the hash. *)
Theorem C138_input : forall (X : Ext) (L : ExtLaws X) (C : Cfg) bs e,
  input_decode bs = Err (IDInsertPair e) ->
  exists l p r, bs = flat_map ser_pair l ++ ser_pair p ++ r /\ input_words p (input_ierr_text e)
    /\ (input_ierr_text e = str "invalid hash preimage" ->
        exists v h, in_hex v (p_value p) /\ in_hex h (k_data (p_key p))
          /\ input_report (IDInsertPair e)
               [str "error inserting a key-value pair"; str "invalid hash preimage";
                str "invalid hash preimage self " ++ v ++ str " " ++ h]).
Proof.
  intros X L C bs e H. destruct (input_quotes _ _ H) as (l & p & r & E & W & V).
  exists l, p, r. split; [exact E|]. split; [exact W|]. intros T.
  destruct e; try discriminate T. destruct V as [-> ->].
  exists (ErrorText.hex_text (p_value p)), (ErrorText.hex_text (k_data (p_key p))). split; [apply hex_shows|]. split; [apply hex_shows|].
  eexists. split; [|reflexivity]. cbn [iderr_source]. do 2 (apply causes_next; cbn [cause_source input_ierr_source]). apply causes_end.
Qed.
Print Assumptions C138_input.

Theorem C138_output : forall (X : Ext) (L : ExtLaws X) (C : Cfg) bs e,
  output_decode bs = Err (ODInsertPair e) ->
  exists l p r, bs = flat_map ser_pair l ++ ser_pair p ++ r /\ output_words p (output_ierr_text e).
Proof. intros X L C bs e. apply output_quotes. Qed.
Print Assumptions C138_output.

Example C138_ex :
  global_decode (map_bytes [pr x02 [] [x01; x02; x03]]) = Err (GDInsertPair (IValueWrongLength 3 4))
  /\ global_ierr_text (IValueWrongLength 3 4) = str "value (keyvalue pair) wrong length (got, want) 3 4"
  /\ (exists e, input_decode (map_bytes [pr x03 [x2a] [x01; x02; x03]]) = Err (IDInsertPair e)
        /\ input_ierr_text e = str "key should not contain data: type: 0x3, key: 2a")
  /\ (exists e, @output_decode _ (cfg_of true false) (map_bytes [pr x09 [] pre_a]) = Err (ODInsertPair e)
        /\ output_ierr_text e = str "value wrong length (got: 3, expected: 66)").
Proof.
  split; [vm_compute; reflexivity|]. split; [vm_compute; reflexivity|].
  split; eexists; (split; [vm_compute; reflexivity|]); vm_compute; reflexivity.
Qed.

(** ** Missing fields *)

Theorem C138_missing_global : forall (X : Ext) (L : ExtLaws X) (C : Cfg) bs e,
  global_decode bs = Err e -> about_a_pair "error inserting a pair" "error deserializing a pair" (global_shape feat_sp) bs (gderr_text e)
  \/ exists l r, bs = map_bytes l ++ r /\ global_lack feat_sp l (gderr_text e).
Proof.
  intros X L C bs e H. apply global_decode_says in H.
  destruct e; cbn [global_says] in H; [left; left; eauto|left; right; eauto|..]; right;
    destruct H as (l & r & E & K); exists l, r; (split; [exact E|]); cbn [global_incomplete gderr_text] in *; try (exfalso; exact K).
  - now constructor.
  - now constructor.
  - now constructor.
  - now constructor.
  - now constructor.
Qed.
Print Assumptions C138_missing_global.

Theorem C138_missing_input : forall (X : Ext) (L : ExtLaws X) (C : Cfg) bs e,
  input_decode bs = Err e -> about_a_pair "error inserting a key-value pair" "error decoding pair" (input_shape feat_sp) bs (iderr_text e)
  \/ exists l r, bs = map_bytes l ++ r /\ input_lack feat_sp l (iderr_text e).
Proof.
  intros X L C bs e H. apply input_decode_says in H.
  destruct e; cbn [input_says] in H; [left; left; eauto|left; right; eauto|..]; right;
    destruct H as (l & r & E & K); exists l, r; (split; [exact E|]); cbn [input_incomplete iderr_text] in *; now constructor.
Qed.
Print Assumptions C138_missing_input.

Theorem C138_missing_output : forall (X : Ext) (L : ExtLaws X) (C : Cfg) bs e,
  output_decode bs = Err e -> about_a_pair "error inserting a pair" "error deserializing a pair" (output_shape feat_sp) bs (oderr_text e)
  \/ exists l r, bs = map_bytes l ++ r /\ output_lack feat_sp l (oderr_text e).
Proof.
  intros X L C bs e H. apply output_decode_says in H.
  destruct e; cbn [output_says] in H; [left; left; eauto|left; right; eauto|..]; right;
    destruct H as (l & r & E & K); exists l, r; (split; [exact E|]); cbn [output_incomplete oderr_text] in *; now constructor.
Qed.
Print Assumptions C138_missing_output.

Example C138_missing_ex :
  (exists e, global_decode (map_bytes [pr xfb [] (le4 2)]) = Err e /\ gderr_text e = str "serialized PSBT is missing the transaction version number")
  /\ (exists e, input_decode (map_bytes [pr x0e [] txid_a]) = Err e /\ iderr_text e = str "input must contain a spent output index")
  /\ (exists e, output_decode (map_bytes [pr x04 [] [x51]]) = Err e /\ oderr_text e = str "encoded output is missing a value").
Proof. repeat split; eexists; (split; [vm_compute; reflexivity|]); reflexivity. Qed.

(** ** Version 0 *)

(** The texts of version 0 that show a pair: they begin with one of these words. *)
Definition about_pair (t : bytes) : Prop :=
  exists w r, In w ["invalid key: "; "duplicate key: "; "Preimage "]%string /\ t = str w ++ r.

Theorem C138_v0 : forall (X : Ext) (L : ExtLaws X) (C : Cfg) txid_text xpub_text bs e,
  psbt0_deserialize bs = Err e -> about_pair (err0_text txid_text xpub_text e) ->
  exists a p r, bs = a ++ ser_pair p ++ r /\ words0 p (err0_text txid_text xpub_text e).
Proof.
  intros X L C f g bs e H (w & r & I & T). apply (deserialize0_quotes f g _ _ H).
  destruct e; try exact Logic.I; exfalso; cbn [In] in I; repeat destruct I as [<-|I]; try discriminate T; try destruct I.
Qed.
Print Assumptions C138_v0.

Example C138_v0_ex :
  (exists e, psbt0_deserialize (sample_of sample0_global [[pr x0a (repeat x07 20) [x01; xff]]] []) = Err e
     /\ forall f g, err0_text f g e
        = str "Preimage [1, 255] does not match Ripemd hash [7, 7, 7, 7, 7, 7, 7, 7, 7, 7, 7, 7, 7, 7, 7, 7, 7, 7, 7, 7]")
  /\ (exists e, psbt0_deserialize (sample_of sample0_global [[pr x03 [x2a] [x01; xff]]] []) = Err e
     /\ forall f g, err0_text f g e = str "invalid key: type: 0x3, key: 2a").
Proof.
  split; eexists; (split; [vm_compute; reflexivity|]); intros f g; vm_compute; reflexivity.
Qed.

(** ** Combining two PSBTs of version 0 *)

(** The version and the extended keys of the global map. *)
Definition about_global (t : bytes) : Prop := exists w r, In w ["version error "; "xpub key error "]%string /\ t = str w ++ r.
Theorem C138_v0_global : forall (X : Ext) (L : ExtLaws X) (C : Cfg) txid_text xpub_text bs e,
  psbt0_deserialize bs = Err e -> about_global (err0_text txid_text xpub_text e) ->
  exists l p r, bs = [x70; x73; x62; x74; xff] ++ flat_map ser_pair l ++ ser_pair p ++ r /\ global_words0 l p (err0_text txid_text xpub_text e).
Proof.
  intros X L C f g bs e H (w & r & I & T). apply (deserialize0_numbers f g _ _ H).
  destruct e; try exact Logic.I; exfalso; cbn [In] in I; repeat destruct I as [<-|I]; try discriminate T; try destruct I.
Qed.
Print Assumptions C138_v0_global.

Example C138_v0_global_ex : forall f g,
  (exists e, psbt0_deserialize (sample_of [pr xfb [] [x00]] [] []) = Err e
     /\ err0_text f g e = str "version error invalid global version value length (must be 4 bytes)")
  /\ (exists e, psbt0_deserialize (sample_of [pr xfb [] (le4 2)] [] []) = Err e
     /\ err0_text f g e = str "version error PSBT versions greater than 0 are not supported")
  /\ (exists e, psbt0_deserialize (sample_of [pr x01 [] []] [] []) = Err e
     /\ err0_text f g e = str "xpub key error -  Xpub global key must contain serialized Xpub data").
Proof. intros f g. repeat split; eexists; (split; [vm_compute; reflexivity|]); reflexivity. Qed.

(** The PSBT as a whole. *)
Theorem C138_v0_whole : forall (X : Ext) (L : ExtLaws X) (C : Cfg) txid_text xpub_text bs e,
  psbt0_deserialize bs = Err e ->
  In (err0_text txid_text xpub_text e)
    [str "invalid magic"; str "invalid separator"; str "partially signed transactions must have an unsigned transaction";
     str "the unsigned transaction has script sigs"] ->
  whole_words0 bs (err0_text txid_text xpub_text e).
Proof.
  intros X L C f g bs e H I. apply (deserialize0_whole f g _ _ H).
  destruct e; try exact Logic.I; exfalso; cbn [In] in I; repeat destruct I as [I|I]; try discriminate I; destruct I.
Qed.
Print Assumptions C138_v0_whole.

Example C138_v0_whole_ex : forall f g,
  (exists e, psbt0_deserialize [x70; x73] = Err e /\ err0_text f g e = str "invalid magic")
  /\ (exists e, psbt0_deserialize [x70; x73; x62; x74; x00] = Err e /\ err0_text f g e = str "invalid separator")
  /\ (exists e, psbt0_deserialize [x70; x73; x62; x74; xff; x00] = Err e
      /\ err0_text f g e = str "partially signed transactions must have an unsigned transaction").
Proof. intros f g. repeat split; eexists; (split; [vm_compute; reflexivity|]); reflexivity. Qed.

(** The text names the two transactions, the one of the PSBT that was to be extended first, or
    the xpub that both have with sources that do not fit.  [txid_text] and [xpub_text] stand for
    the printing of rust-bitcoin. *)
Theorem C138_combine : forall (X : Ext) (C : Cfg) txid_text xpub_text a b e, sorted_psbt0 a -> sorted_psbt0 b ->
  psbt0_combine a b = Err e ->
  (p0_unsigned_tx a <> p0_unsigned_tx b
   /\ err0_text txid_text xpub_text e
      = str "different unsigned transaction: expected " ++ txid_text (p0_unsigned_tx a) ++ str ", actual " ++ txid_text (p0_unsigned_tx b))
  \/ (p0_unsigned_tx a = p0_unsigned_tx b
      /\ exists x, xpub_conflict (p0_xpub a) (p0_xpub b) x /\ err0_text txid_text xpub_text e = str "combine conflict: " ++ xpub_text x).
Proof.
  intros X C f g a b e Sa Sb H.
  destruct (proj1 (combine0_err_iff a b e Sa Sb) H) as [(N & ->)|(E & x & -> & Q)]; [left|right; split; [exact E|exists x]]; auto.
Qed.
Print Assumptions C138_combine.

Example C138_combine_ex :
  let f := fun t : tx => dec_text (N.of_nat (length (tx_input t))) in let g := fun x : xpub => str "xpub" in
  (exists e, psbt0_combine cx0_left sample0 = Err e
     /\ err0_text f g e = str "different unsigned transaction: expected " ++ f (p0_unsigned_tx cx0_left) ++ str ", actual " ++ f (p0_unsigned_tx sample0))
  /\ (exists e, psbt0_combine (cx0 [xpub_pair x05 [1; 2]] [] []) (cx0 [xpub_pair x06 [3; 4]] [] []) = Err e
     /\ err0_text f g e = str "combine conflict: xpub").
Proof.
  cbn zeta. split; eexists; (split; [vm_compute; reflexivity|]); vm_compute; reflexivity.
Qed.

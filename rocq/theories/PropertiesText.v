(** C55, C94, C95: the text of PSBTs and the printing of errors. *)
From Coq Require Import Strings.String.
From Verif Require Import Base OMap Consensus ConsensusFacts Ext ExtInstance Raw RawFacts TapTree TapTreeFacts Serialize SerializeFacts MapCodec
  SighashType V2Global V2Input V2Output V2Psbt V2Roles SpecCodec SpecCodecFacts SpecPsbt SpecRoles V2PsbtFacts V2WireFacts V2RolesFacts
  SampleV2 V0Error V0Input V0Output V0Psbt SpecPsbt0 V0PsbtFacts V0WireFacts V0PairFacts SampleV0
  SpecText Text TextFacts.
Local Open Scope N_scope.

Local Notation cfg0 := (cfg_of false false).
(** Used by the examples only; the theorems bind their own. *)
#[local] Existing Instance toy | 100.
#[local] Instance ex_cfg : Cfg | 100 := cfg_of false false.

Lemma from_str_ok {X : Ext} {C : Cfg} s p :
  psbt_from_str s = Ok p <-> exists bs, base64 bs s /\ psbt_deserialize bs = Ok p.
Proof.
  unfold psbt_from_str. split.
  - intros H. apply bind_ok in H as (bs & E & H). apply map_err_ok in E, H. exists bs. now rewrite base64_decode_iff.
  - intros (bs & E & H). rewrite base64_decode_iff in E. rewrite E. cbn [map_err bind]. now rewrite H.
Qed.
Lemma from_str0_ok {X : Ext} s p :
  psbt0_from_str s = Ok p <-> exists bs, base64 bs s /\ psbt0_deserialize bs = Ok p.
Proof.
  unfold psbt0_from_str. split.
  - intros H. apply bind_ok in H as (bs & E & H). apply map_err_ok in E, H. exists bs. now rewrite base64_decode_iff.
  - intros (bs & E & H). rewrite base64_decode_iff in E. rewrite E. cbn [map_err bind]. now rewrite H.
Qed.

(** ** C94: text round trip *)

Theorem C94_v2 : forall (X : Ext) (L : ExtLaws X) (C : Cfg) p,
  wf_psbt p -> exists p', psbt_from_str (psbt_to_string p) = Ok p' /\ psbt_eq p p'.
Proof.
  intros X L C p W. destruct (psbt_roundtrip p W) as (p' & E & Q). exists p'. split; [|assumption].
  apply from_str_ok. exists (psbt_serialize p). split; [apply encode_base64|assumption].
Qed.
Print Assumptions C94_v2.

Theorem C94_v2_exact : forall (X : Ext) (L : ExtLaws X) (C : Cfg) p,
  no_tap_ties p -> (wf_psbt p <-> psbt_from_str (psbt_to_string p) = Ok p).
Proof.
  intros X L C p T. rewrite from_str_ok. split.
  - intros W. exists (psbt_serialize p). split; [apply encode_base64|now apply psbt_roundtrip_exact].
  - intros (bs & _ & H). now apply deserialize_wf in H.
Qed.
Print Assumptions C94_v2_exact.

Theorem C94_v0 : forall (X : Ext) (L : ExtLaws X) p,
  wf_psbt0 p -> exists p', psbt0_from_str (psbt0_to_string p) = Ok p' /\ psbt0_eq p p'.
Proof.
  intros X L p W. destruct (psbt0_roundtrip p W) as (p' & E & Q). exists p'. split; [|assumption].
  apply from_str0_ok. exists (psbt0_serialize p). split; [apply encode_base64|assumption].
Qed.
Print Assumptions C94_v0.

Theorem C94_v0_exact : forall (X : Ext) (L : ExtLaws X) p,
  no_tap_ties0 p -> (wf_psbt0 p <-> psbt0_from_str (psbt0_to_string p) = Ok p).
Proof.
  intros X L p T. rewrite from_str0_ok. split.
  - intros W. exists (psbt0_serialize p). split; [apply encode_base64|now apply psbt0_roundtrip_exact].
  - intros (bs & _ & H). now apply deserialize0_wf in H.
Qed.
Print Assumptions C94_v0_exact.

(** A PSBT that was read from a text is read again from the text that it prints. *)
Theorem C94_stable : forall (X : Ext) (L : ExtLaws X) (C : Cfg) s p,
  psbt_from_str s = Ok p -> exists p', psbt_from_str (psbt_to_string p) = Ok p' /\ psbt_eq p p'.
Proof.
  intros X L C s p H. apply from_str_ok in H as (bs & _ & H). apply (C94_v2 X L C). now apply deserialize_wf in H.
Qed.
Print Assumptions C94_stable.

Theorem C94_stable_v0 : forall (X : Ext) (L : ExtLaws X) s p,
  psbt0_from_str s = Ok p -> exists p', psbt0_from_str (psbt0_to_string p) = Ok p' /\ psbt0_eq p p'.
Proof.
  intros X L s p H. apply from_str0_ok in H as (bs & _ & H). apply (C94_v0 X L). now apply deserialize0_wf in H.
Qed.
Print Assumptions C94_stable_v0.

Example C94_example : @psbt_from_str toy cfg0 (psbt_to_string sample) = Ok sample
  /\ @psbt0_from_str toy (psbt0_to_string sample0) = Ok sample0
  /\ Nat.leb 500 (length (psbt_to_string sample)) = true /\ Nat.leb 500 (length (psbt0_to_string sample0)) = true.
Proof. vm_compute. auto. Qed.

(** ** C95: the text is base64, and nothing else is accepted *)

Theorem C95_printed : forall (X : Ext) (C : Cfg) p, base64 (psbt_serialize p) (psbt_to_string p).
Proof. intros X C p. apply encode_base64. Qed.
Print Assumptions C95_printed.

Theorem C95_printed_v0 : forall (X : Ext) p, base64 (psbt0_serialize p) (psbt0_to_string p).
Proof. intros X p. apply encode_base64. Qed.
Print Assumptions C95_printed_v0.

Theorem C95_accepted : forall (X : Ext) (C : Cfg) s p,
  psbt_from_str s = Ok p <-> exists bs, base64 bs s /\ psbt_deserialize bs = Ok p.
Proof. intros X C. exact from_str_ok. Qed.
Print Assumptions C95_accepted.

Theorem C95_accepted_v0 : forall (X : Ext) s p,
  psbt0_from_str s = Ok p <-> exists bs, base64 bs s /\ psbt0_deserialize bs = Ok p.
Proof. intros X. exact from_str0_ok. Qed.
Print Assumptions C95_accepted_v0.

(** A byte string has one text and a text stands for one byte string. *)
Theorem C95_canonical : forall bs bs' s s',
  base64 bs s -> base64 bs' s' -> (bs = bs' <-> s = s').
Proof.
  intros bs bs' s s' H H'. apply base64_encode_iff in H, H'. subst. split; [now intros ->|apply b64_encode_inj].
Qed.
Print Assumptions C95_canonical.

Theorem C95_errors : forall (X : Ext) (C : Cfg) s,
  (exists e, psbt_from_str s = Err (PEBase64Encoding e)) <-> (forall bs, ~ base64 bs s).
Proof.
  intros X C s. unfold psbt_from_str. split.
  - intros (e & H) bs B. apply base64_decode_iff in B. rewrite B in H. cbn [map_err bind] in H.
    destruct (psbt_deserialize bs); discriminate.
  - intros N. destruct (b64_decode s) as [bs|e|] eqn:E.
    + apply base64_decode_iff in E. now apply N in E.
    + exists e. reflexivity.
    + now apply b64_decode_nopanic in E.
Qed.
Print Assumptions C95_errors.

Theorem C95_errors_v0 : forall (X : Ext) s,
  (exists e, psbt0_from_str s = Err (PE0Base64Encoding e)) <-> (forall bs, ~ base64 bs s).
Proof.
  intros X s. unfold psbt0_from_str. split.
  - intros (e & H) bs B. apply base64_decode_iff in B. rewrite B in H. cbn [map_err bind] in H.
    destruct (psbt0_deserialize bs); discriminate.
  - intros N. destruct (b64_decode s) as [bs|e|] eqn:E.
    + apply base64_decode_iff in E. now apply N in E.
    + exists e. reflexivity.
    + now apply b64_decode_nopanic in E.
Qed.
Print Assumptions C95_errors_v0.

(** Every text of a PSBT starts with the same six characters, and the next is one of four. *)
Definition psbt_prefix (s : bytes) : Prop :=
  exists c t, s = list_byte_of_string "cHNidP" ++ c :: t /\ In c (list_byte_of_string "89+/").

Lemma prefix_encode t : psbt_prefix (b64_encode ([x70; x73; x62; x74; xff] ++ t)).
Proof.
  unfold psbt_prefix. destruct t as [|b t].
  - eexists _, _. split; [vm_compute; reflexivity|]. vm_compute. auto.
  - exists (b64_char (b2n xff mod 16 * 4 + b2n b / 64)), (b64_char (b2n b mod 64) :: b64_encode t). split; [reflexivity|].
    assert (F : forall b, existsb (beq (b64_char (b2n xff mod 16 * 4 + b2n b / 64))) (list_byte_of_string "89+/") = true).
    { apply byte_check. vm_compute. reflexivity. }
    specialize (F b). apply existsb_exists in F as (c & I & E). apply N.eqb_eq, b2n_inj in E. now rewrite E.
Qed.

Theorem C95_prefix : forall (X : Ext) (C : Cfg) s p, psbt_from_str s = Ok p -> psbt_prefix s.
Proof.
  intros X C s p H. apply from_str_ok in H as (bs & B & H). apply base64_encode_iff in B. subst s.
  apply deserialize_gate in H. rewrite H. apply prefix_encode.
Qed.
Print Assumptions C95_prefix.

Theorem C95_prefix_v0 : forall (X : Ext) s p, psbt0_from_str s = Ok p -> psbt_prefix s.
Proof.
  intros X s p H. apply from_str0_ok in H as (bs & B & H). apply base64_encode_iff in B. subst s.
  apply deserialize0_gate in H.
  rewrite H. apply prefix_encode.
Qed.
Print Assumptions C95_prefix_v0.

(** No text is both a v0 and a v2 PSBT. *)
Theorem C95_one_version : forall (X : Ext) (L : ExtLaws X) (C : Cfg) s p q,
  psbt_from_str s = Ok p -> psbt0_from_str s <> Ok q.
Proof.
  intros X L C s p q H H0. apply from_str_ok in H as (bs & B & H). apply from_str0_ok in H0 as (bs' & B' & H0).
  apply base64_decode_iff in B, B'. assert (bs' = bs) by congruence. subst bs'. exact (versions_disjoint bs p q H H0).
Qed.
Print Assumptions C95_one_version.

Theorem C95_nopanic_v0 : forall (X : Ext) (L : ExtLaws X) s, psbt0_from_str s <> Panic.
Proof.
  intros X L s. unfold psbt0_from_str. pose proof (b64_decode_nopanic s) as N.
  destruct (b64_decode s) as [bs|e|]; cbn [map_err bind]; [|discriminate|congruence].
  pose proof (deserialize0_np bs) as N0. destruct (psbt0_deserialize bs); cbn [map_err]; congruence.
Qed.
Print Assumptions C95_nopanic_v0.

(** White space, missing padding and non-zero trailing bits are rejected. *)
Example C95_example :
  b64_encode (list_byte_of_string "psbt") = list_byte_of_string "cHNidA=="
  /\ b64_decode (list_byte_of_string "cHNidA==") = Ok (list_byte_of_string "psbt")
  /\ b64_decode (list_byte_of_string "cHNidA") = Err B64Error
  /\ b64_decode (list_byte_of_string "cHNidB==") = Err B64Error
  /\ b64_decode (list_byte_of_string "cHNi dA==") = Err B64Error
  /\ b64_decode (list_byte_of_string "cHNidA==cHNidA==") = Err B64Error
  /\ (exists e, @psbt_from_str toy cfg0 (list_byte_of_string "cHNidP8=") = Err (PEPsbtEncoding e))
  /\ firstn 7 (@psbt_to_string toy cfg0 sample) = list_byte_of_string "cHNidP8".
Proof. vm_compute. repeat split. eexists. reflexivity. Qed.

(** ** C55: printing errors *)

(** What happens when the outcome of reading a PSBT is printed, as in [{}] of the error. *)
Definition print_failure {E A} (display : E -> printed) (r : res E A) : printed :=
  match r with Ok _ => Ok tt | Err e => display e | Panic => Panic end.

(** Every byte string that is not a PSBT has an error that cannot be printed. *)
Theorem C55_deserialize_refuted : exists bs e, @psbt_deserialize toy cfg0 bs = Err e /\ deserr_display e = Panic
  /\ deserr_source e = Panic.
Proof. exists [x70; x73; x62; x74; x00], InvalidSeparator. vm_compute. auto. Qed.
Print Assumptions C55_deserialize_refuted.

Theorem C55_deserialize_never : forall (X : Ext) (C : Cfg) bs,
  print_failure deserr_display (psbt_deserialize bs) = Ok tt <-> exists p, psbt_deserialize bs = Ok p.
Proof.
  intros X C bs. destruct (psbt_deserialize bs) as [p|e|]; cbn.
  - split; [intros _; now exists p|reflexivity].
  - split; [discriminate|intros (p & H); discriminate].
  - split; [discriminate|intros (p & H); discriminate].
Qed.
Print Assumptions C55_deserialize_never.

(** Errors of reading a text: printed with "std", but a report that includes the sources panics;
    without "std" they cannot be printed either. *)
Theorem C55_text : forall (X : Ext) (C : Cfg) s e, psbt_from_str s = Err e ->
  parseerr_display true e = Ok tt /\
  (parseerr_display false e = Ok tt <-> forall bs, ~ base64 bs s) /\
  (forall std, parseerr_report std e = Ok tt <-> forall bs, ~ base64 bs s).
Proof.
  intros X C s e H.
  assert (Q : (forall bs, ~ base64 bs s) <-> exists e0, e = PEBase64Encoding e0).
  { rewrite <- (C95_errors X C s). split; intros (e0 & E); exists e0; congruence. }
  destruct e as [e|e]; (split; [reflexivity|]); split; [|intros std| |intros std]; rewrite Q.
  - split; [discriminate|intros (e0 & E); discriminate].
  - destruct std; (split; [discriminate|intros (e0 & E); discriminate]).
  - split; [intros _; now exists e|reflexivity].
  - destruct std; (split; [intros _; now exists e|reflexivity]).
Qed.
Print Assumptions C55_text.

(** Errors of the extractor that the role makes: always printed, as the one that cannot be is not
    returned. *)
Theorem C55_extractor : forall (C : Cfg) std p e, extractor_new p = Err e -> extracterr_display std e = Ok tt.
Proof. intros C [|] p [|e] _; reflexivity. Qed.
Print Assumptions C55_extractor.

Theorem C55_extract : forall (X : Ext) (C : Cfg) std max p q e, extractor_new p = Ok q ->
  (exists t, extract_tx_unchecked q = Ok t) /\
  (extract_tx_with_fee_rate_limit max q = Err e -> extractfeeerr_display std e = Ok tt).
Proof.
  intros X C std max p q e H. apply extractor_new_ok in H as (-> & F & n & Hn).
  destruct (extract_unchecked_ok p n F Hn) as (t & E & _). split; [now exists t|].
  unfold extract_tx_with_fee_rate_limit. rewrite E. cbn [map_err bind].
  destruct (psbt_fee p) as [f|fe|]; cbn [map_err bind].
  - cbv zeta. unfold fail_if. destruct (_ <? _); cbn [bind]; [|discriminate]. intros Q. injection Q as <-. reflexivity.
  - intros Q. injection Q as <-. destruct std; [reflexivity|]. now destruct fe.
  - discriminate.
Qed.
Print Assumptions C55_extract.

(** An extractor that was not made by [Extractor::new] (with the feature "serde" it can be
    deserialized) fails with an error that cannot be printed. *)
Theorem C55_extract_refuted : exists p e, @extract_tx_unchecked cfg0 p = Err e /\ extracttxerr_display e = Panic.
Proof. exists sample, ETUnfinalized. vm_compute. auto. Qed.
Print Assumptions C55_extract_refuted.

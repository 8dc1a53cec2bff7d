(** C08: exactly when the version 2 decoder panics. *)
From Coq Require Import List.
From Verif Require Import Base OMap Consensus ConsensusFacts Ext ExtInstance Raw RawFacts TapTree SpecCodec SpecCodecFacts Serialize SerializeFacts
  MapCodec MapFacts V2Global V2Input V2Output V2Psbt SpecPsbt V2PsbtFacts V2WireFacts V2PairFacts V2InputFacts
  SpecErrors SpecAccept AcceptAllFacts SampleV2 SpecText Text TextFacts.
Local Open Scope N_scope.

#[local] Existing Instance toy | 100.
#[local] Existing Instance toy_laws | 100.
Local Notation cfg0 := (cfg_of false false).

(** The counts ask for more memory than [Vec::with_capacity] can have.  The global map has been
    read by then, and before the space for the outputs is asked for also all the input maps. *)
Definition asks_too_much `{X : Ext} (sp : bool) (si so : N) (bs : bytes) : Prop :=
  exists lg wg t ni no, bs = [x70; x73; x62; x74; xff] ++ wg ++ t /\ map_wire lg wg /\ sizes lg /\ global_fine sp lg
    /\ last_count lg x04 ni /\ last_count lg x05 no
    /\ (2 ^ 63 <= ni * si
        \/ (ni * si < 2 ^ 63 /\ 2 ^ 63 <= no * so
            /\ exists lis bis t', t = concat bis ++ t' /\ Forall2 map_wire lis bis
                /\ Forall sizes lis /\ Forall (input_fine sp) lis /\ blen lis = ni)).

Lemma wires_ser ls bs : Forall2 map_wire ls bs -> concat bs = concat (map ser_pairs ls).
Proof. induction 1 as [|l b ls bs H _ IH]; [reflexivity|]. cbn [map concat]. apply map_wire_ser in H. now rewrite IH, H. Qed.
Lemma ser_wires ls : Forall (Forall wf_pair) ls -> Forall2 map_wire ls (map ser_pairs ls).
Proof. induction 1; cbn [map]; constructor; auto. now apply ser_pairs_spec. Qed.

Theorem C08_panic_iff : forall (X : Ext) (L : ExtLaws X) (C : Cfg) bs,
  psbt_deserialize bs = Panic <-> asks_too_much feat_sp size_input size_output bs.
Proof.
  intros X L C bs. split.
  - intros H. unfold psbt_deserialize in H.
    destruct (bytes_eqb (firstn 4 bs) MAGIC_BYTES) eqn:E1; [|discriminate].
    destruct (bytes_eqb (firstn 1 (skipn 4 bs)) [PSBT_SEPARATOR]) eqn:E2; [|discriminate].
    cbn [negb fail_if bind] in H. pose proof (head_split _ E1 E2) as E.
    pose proof (global_decode_np (skipn 5 bs)) as Hn.
    destruct (global_decode (skipn 5 bs)) as [[g d1]| |] eqn:D1; cbn [map_err bind] in H; try discriminate; [|congruence].
    apply global_decode_iff in D1 as (lg & Eg & A). rewrite Eg in E.
    assert (Wg : Forall wf_pair lg) by apply A. assert (Sg : sizes lg) by now apply sizes_wf.
    destruct (proj1 (global_fine_acc lg (g_input_count g) (g_output_count g) Sg)) as (Fg & C1 & C2); [eauto|].
    exists lg, (ser_pairs lg), d1, (g_input_count g), (g_output_count g). split; [exact E|].
    split; [now apply ser_pairs_spec|]. repeat (split; [assumption|]).
    destruct (g_input_count g * size_input <=? ISIZE_MAX) eqn:K1; [|left; change ISIZE_MAX with (2 ^ 63 - 1) in K1; lia]. cbn [panic_unless bind] in H.
    pose proof (dec_maps_np input_decode (IDDeserPair SNoMorePairs) (S (length d1)) input_decode_np (g_input_count g) d1) as Hi.
    destruct (dec_maps input_decode _ _ _ _) as [[is d2]| |] eqn:Di; cbn [map_err bind] in H; try discriminate; [|congruence].
    destruct (g_output_count g * size_output <=? ISIZE_MAX) eqn:K2.
    { exfalso. cbn [panic_unless bind] in H.
      pose proof (dec_maps_np output_decode (ODDeserPair SNoMorePairs) (S (length d2)) output_decode_np (g_output_count g) d2) as Ho.
      destruct (dec_maps output_decode _ _ _ _) as [[os d3]| |]; cbn [map_err bind] in H; try discriminate. congruence. }
    right. change ISIZE_MAX with (2 ^ 63 - 1) in K1, K2. split; [lia|]. split; [lia|].
    apply input_maps in Di as (lis & Ed & Fa & Nn).
    destruct (proj1 (fine_acc _ _ input_fine_acc (fun l a K => proj1 K) lis)) as [Si Fi]; [eauto|].
    exists lis, (map ser_pairs lis), d2. split; [exact Ed|]. split; [now apply ser_wires, sizes_wfs|].
    repeat (split; [assumption|]). rewrite Nn. unfold blen. now rewrite (F2_length _ _ _ Fa).
  - intros (lg & wg & t & ni & no & -> & Wg & Sg & Fg & C1 & C2 & K).
    destruct (proj2 (global_fine_acc lg ni no Sg)) as (g & A & E1 & E2); [auto|].
    apply map_wire_ser in Wg. subst wg.
    assert (D : global_decode (ser_pairs lg ++ t) = Ok (g, t)) by (apply global_decode_iff; eauto).
    rewrite deserialize_head, D. cbn [map_err bind]. rewrite E1, E2.
    destruct K as [K|(K1 & K2 & lis & bis & t' & -> & W & Si & Fi & Nn)].
    + replace (ni * size_input <=? ISIZE_MAX) with false by (change ISIZE_MAX with (2 ^ 63 - 1); lia). reflexivity.
    + replace (ni * size_input <=? ISIZE_MAX) with true by (change ISIZE_MAX with (2 ^ 63 - 1); lia). cbn [panic_unless bind].
      destruct (proj2 (fine_acc _ _ input_fine_acc (fun l a K => proj1 K) lis)) as (is & A2); [auto|].
      rewrite (wires_ser _ _ W).
      assert (Di : dec_maps input_decode (IDDeserPair SNoMorePairs) (S (length (concat (map ser_pairs lis) ++ t'))) ni (concat (map ser_pairs lis) ++ t') = Ok (is, t')).
      { apply input_maps. exists lis. split; [reflexivity|]. split; [exact A2|].
        rewrite <- Nn. unfold blen. now rewrite (F2_length _ _ _ A2). }
      rewrite Di. cbn [map_err bind].
      replace (no * size_output <=? ISIZE_MAX) with false by (change ISIZE_MAX with (2 ^ 63 - 1); lia). reflexivity.
Qed.
Print Assumptions C08_panic_iff.

(** Both cases occur: 36 bytes that declare 2^64 - 1 inputs, and 36 bytes that declare no input and
    2^64 - 1 outputs.  The outputs are not counted when an input is missing. *)
Example C08_panic_case :
  let few n m := sample_of [pr xfb [] (le4 2); pr x02 [] (le4 2); pr x04 [] n; pr x05 [] m] [] [] in
  asks_too_much false (@size_input cfg0) (@size_output cfg0) (few (repeat xff 9) [x00])
  /\ asks_too_much false (@size_input cfg0) (@size_output cfg0) (few [x00] (repeat xff 9))
  /\ ~ asks_too_much false (@size_input cfg0) (@size_output cfg0) (few [x01] (repeat xff 9))
  /\ ~ asks_too_much false (@size_input cfg0) (@size_output cfg0) sample_bytes.
Proof.
  cbv zeta. split; [|split; [|split]].
  - apply (C08_panic_iff toy toy_laws cfg0). vm_compute. reflexivity.
  - apply (C08_panic_iff toy toy_laws cfg0). vm_compute. reflexivity.
  - intros H. apply (C08_panic_iff toy toy_laws cfg0) in H. vm_compute in H. discriminate H.
  - intros H. apply (C08_panic_iff toy toy_laws cfg0) in H. rewrite sample_decodes in H. discriminate H.
Qed.

(** Reading the text panics exactly when it is the text of such bytes. *)
Theorem C95_panic_iff : forall (X : Ext) (L : ExtLaws X) (C : Cfg) s,
  psbt_from_str s = Panic <-> exists bs, base64 bs s /\ asks_too_much feat_sp size_input size_output bs.
Proof.
  intros X L C s. unfold psbt_from_str. split.
  - intros H. destruct (b64_decode s) as [bs|e|] eqn:E; [|discriminate H|now apply b64_decode_nopanic in E].
    exists bs. split; [now apply base64_decode_iff|]. apply (C08_panic_iff X L C). cbn [map_err bind] in H.
    destruct (psbt_deserialize bs); [discriminate H|discriminate H|reflexivity].
  - intros (bs & B & A). apply base64_decode_iff in B. apply (C08_panic_iff X L C) in A. now rewrite B; cbn [map_err bind]; rewrite A.
Qed.
Print Assumptions C95_panic_iff.

Example C95_panic_case :
  let few n m := sample_of [pr xfb [] (le4 2); pr x02 [] (le4 2); pr x04 [] n; pr x05 [] m] [] [] in
  @psbt_from_str toy cfg0 (b64_encode (few (repeat xff 9) [x00])) = Panic
  /\ (exists e, @psbt_from_str toy cfg0 (b64_encode (few [x01] (repeat xff 9))) = Err e).
Proof. cbv zeta. split; [vm_compute; reflexivity|]. eexists. vm_compute. reflexivity. Qed.

(** C124, C125: reading and writing a PSBT keeps every key-value pair. *)
From Coq Require Import Permutation.
From Verif Require Import Base OMap Consensus Ext ExtInstance Raw RawFacts TapTree Serialize MapCodec
  V2Global V2Input V2Output V2Psbt SpecCodec SpecCodecFacts SpecPsbt V2PsbtFacts V2CodecFacts V2WireFacts V2PairFacts
  V0Error V0Input V0Output V0Psbt SpecPsbt0 V0PsbtFacts V0WireFacts V0PairFacts
  SpecTx SpecTapTree SpecKept KeptFacts SampleV2 SampleV0 PropertiesV2Codec PropertiesV0Codec.
Local Open Scope N_scope.

(** Used by the examples only; the theorems bind their own. *)
#[local] Existing Instance toy | 100.
#[local] Instance ex_cfg : Cfg | 100 := cfg_of false false.

(** ** C124 *)

Theorem C124_kept : forall (X : Ext) (L : ExtLaws X) bs p lg lis los lg' lis' los',
  psbt0_deserialize bs = Ok p -> maps0_of bs p lg lis los -> maps0_of (psbt0_serialize p) p lg' lis' los' ->
  Permutation lg' (filter (fun q => negb (beq (k_type (p_key q)) xfb)) lg)
  /\ Forall2 (rewritten kept_in0 []) lis lis'
  /\ Forall2 (rewritten kept_out0 []) los los'.
Proof.
  intros X L bs p lg lis los lg' lis' los' D M M'.
  split; [exact (proj1 (deserialize0_raw _ _ _ _ _ _ _ _ D M M'))|].
  pose proof (deserialize0_wf _ _ D) as W. pose proof (deserialize0_unique _ _ _ _ _ D M) as A.
  assert (E : lg' = global0_pairs p /\ lis' = map input0_pairs (p0_inputs p) /\ los' = map output0_pairs (p0_outputs p)).
  { pose proof (serialize0_pairs_wf _ W) as (W1 & W2 & W3).
    destruct M' as (w & t & E & Hw & N1 & N2). rewrite serialize0_wire in E by assumption.
    apply psbt_wire_ser in Hw as (-> & Q1 & Q2 & Q3). rewrite <- !app_assoc in E. apply app_inv_head in E.
    symmetry in E. apply ser_pairs_unique in E as [-> E]; auto.
    apply sers_unique in E as [-> E]; auto; [|now rewrite map_length].
    rewrite <- (app_nil_r (concat (map ser_pairs (map output0_pairs _)))) in E.
    apply sers_unique in E as [-> E]; auto. now rewrite map_length. }
  destruct E as (-> & -> & ->). destruct A as (_ & A2 & A3 & _). split.
  - clear -A2 L. induction A2; cbn [map]; constructor; auto. now apply input0_rewritten.
  - clear -A3 L. induction A3; cbn [map]; constructor; auto. now apply output0_rewritten.
Qed.
Print Assumptions C124_kept.

(** A Schnorr signature with the byte of the default sighash type, a derivation of an
    uncompressed key, and a tap tree whose leaves are listed in the other order. *)
Definition ex0_in : list pair :=
  [pr x13 [] (repeat x5a 64 ++ [x00]); pr x06 (toy_secp_uncompress pk_b) (le4 9 ++ le4 1); pr xf1 [] [x09]].
Definition ex0_out : list pair :=
  [pr x06 [] [x01; xc0; x01; x52; x01; xc0; x01; x51]; pr xf2 [x00] []].
Definition ex0_kept : bytes := sample_of sample0_global [ex0_in; sample0_input_b] [sample0_output_a; ex0_out].
Definition dec0 (bs : bytes) : psbt0 := match psbt0_deserialize bs with Ok p => p | _ => sample0 end.
Example C124_example :
  psbt0_deserialize ex0_kept = Ok (dec0 ex0_kept)
  /\ maps0_of ex0_kept (dec0 ex0_kept) sample0_global [ex0_in; sample0_input_b] [sample0_output_a; ex0_out]
  /\ (exists lg lis los, maps0_of (psbt0_serialize (dec0 ex0_kept)) (dec0 ex0_kept) lg lis los)
  /\ map input0_pairs (firstn 1 (p0_inputs (dec0 ex0_kept)))
     = [[pr x06 pk_b (le4 9 ++ le4 1); pr x13 [] (repeat x5a 64); pr xf1 [] [x09]]]
  /\ map output0_pairs (skipn 1 (p0_outputs (dec0 ex0_kept)))
     = [[pr x06 [] [x01; xc0; x01; x51; x01; xc0; x01; x52]; pr xf2 [x00] []]].
Proof.
  assert (D : psbt0_deserialize ex0_kept = Ok (dec0 ex0_kept)) by (vm_compute; reflexivity).
  split; [exact D|]. split.
  { rewrite <- (app_nil_r ex0_kept). unfold ex0_kept at 1. apply sample0_of_maps; vm_compute; reflexivity. }
  split; [do 3 eexists; exact (@serialize0_maps toy toy_laws _ (@deserialize0_wf toy toy_laws _ _ D))|].
  split; vm_compute; reflexivity.
Qed.

(** ** C125 *)

(** Of several pairs of the same required field only the last is kept. *)
Theorem C125_kept_partial : forall (X : Ext) (L : ExtLaws X) (C : Cfg) bs p lg lis los lg' lis' los',
  psbt_deserialize bs = Ok p -> maps_of bs p lg lis los -> maps_of (psbt_serialize p) p lg' lis' los' ->
  rewritten kept_global (if lacks x06 lg then [Pair (Key x06 []) [x00]] else []) (last_only x04 lg) lg'
  /\ Forall2 (fun l => rewritten kept_in [] (last_only x0e (last_only x0f l))) lis lis'
  /\ Forall2 (fun l => rewritten kept_out (if lacks x04 l then [Pair (Key x04 []) []] else []) (last_only x03 (last_only x04 l))) los los'.
Proof.
  intros X L C bs p lg lis los lg' lis' los' D M M'.
  pose proof (deserialize_wf _ _ D) as W. pose proof (deserialize_unique _ _ _ _ _ D M) as A.
  assert (E : lg' = global_pairs (p_global p) /\ lis' = map input_pairs (p_inputs p) /\ los' = map output_pairs (p_outputs p)).
  { pose proof (serialize_pairs_wf _ W) as (W1 & W2 & W3).
    destruct M' as (w & t & E & Hw & N1 & N2). rewrite serialize_wire in E by assumption.
    apply psbt_wire_ser in Hw as (-> & Q1 & Q2 & Q3). rewrite <- !app_assoc in E. apply app_inv_head in E.
    symmetry in E. apply ser_pairs_unique in E as [-> E]; auto.
    apply sers_unique in E as [-> E]; auto; [|now rewrite map_length].
    rewrite <- (app_nil_r (concat (map ser_pairs (map output_pairs _)))) in E.
    apply sers_unique in E as [-> E]; auto. now rewrite map_length. }
  destruct E as (-> & -> & ->). destruct A as (A1 & A2 & A3 & _). split; [now apply global_rewritten|]. split.
  - clear -A2 L. induction A2; cbn [map]; constructor; auto. now apply input_rewritten.
  - clear -A3 L. induction A3; cbn [map]; constructor; auto. now apply output_rewritten.
Qed.
Print Assumptions C125_kept_partial.

(** Maps in which no key type of a required field is repeated are kept in full. *)
Lemma last_only_unique t l : (length (filter (fun p => beq (k_type (p_key p)) t) l) <= 1)%nat -> last_only t l = l.
Proof.
  induction l as [|p l IH]; [reflexivity|]. cbn [filter last_only]. destruct (beq (k_type (p_key p)) t) eqn:E; cbn [andb length]; intros H.
  - destruct (existsb _ l) eqn:Ex; [|now rewrite IH by lia]. apply existsb_exists in Ex as (q & Hq & Eq).
    assert (In q (filter (fun p => beq (k_type (p_key p)) t) l)) as Hf by now apply filter_In.
    destruct (filter _ l); [destruct Hf|]. cbn [length] in H. lia.
  - now rewrite IH by lia.
Qed.
Theorem C125_complete : forall (X : Ext) (L : ExtLaws X) (C : Cfg) bs p lg lis los lg' lis' los',
  psbt_deserialize bs = Ok p -> maps_of bs p lg lis los -> maps_of (psbt_serialize p) p lg' lis' los' ->
  let once t l := (length (filter (fun q => beq (k_type (p_key q)) t) l) <= 1)%nat in
  (once x04 lg -> rewritten kept_global (if lacks x06 lg then [Pair (Key x06 []) [x00]] else []) lg lg')
  /\ Forall2 (fun l l' => once x0e l -> once x0f l -> rewritten kept_in [] l l') lis lis'
  /\ Forall2 (fun l l' => once x03 l -> once x04 l -> rewritten kept_out (if lacks x04 l then [Pair (Key x04 []) []] else []) l l') los los'.
Proof.
  intros X L C bs p lg lis los lg' lis' los' D M M' once.
  destruct (C125_kept_partial X L C bs p lg lis los lg' lis' los' D M M') as (G & I & O). split; [|split].
  - intros H. now rewrite last_only_unique in G.
  - clear -I. induction I as [|l l' ls ls' H _ IH]; constructor; auto. intros U1 U2. now rewrite !last_only_unique in H by (rewrite ?last_only_unique; assumption).
  - clear -O. induction O as [|l l' ls ls' H _ IH]; constructor; auto. intros U1 U2. now rewrite !last_only_unique in H by (rewrite ?last_only_unique; assumption).
Qed.
Print Assumptions C125_complete.

(** Not every pair is kept: of two previous txids and output indices two pairs are lost. *)
Theorem C125_dropped_refuted : exists bs p lg lis los lg' lis' los',
  @psbt_deserialize toy (cfg_of false false) bs = Ok p /\ maps_of bs p lg lis los
  /\ maps_of (@psbt_serialize toy (cfg_of false false) p) p lg' lis' los'
  /\ (length (concat lis') < length (concat lis))%nat.
Proof.
  exists (sample_of sample_global
    [pr x0e [] (repeat x00 32) :: pr x0f [] (repeat xff 4) :: sample_input_a; sample_input_b] [sample_output_a; sample_output_b]), sample.
  do 6 eexists. split; [vm_compute; reflexivity|]. split.
  - rewrite <- (app_nil_r (sample_of _ _ _)). apply sample_of_maps; vm_compute; reflexivity.
  - split; [exact (@serialize_maps toy toy_laws (cfg_of false false) sample sample_wf)|]. vm_compute. lia.
Qed.
Print Assumptions C125_dropped_refuted.

(** A count with a byte behind it, no flags, key data behind the type of a required field,
    an uncompressed key and another order of the leaves of a tap tree. *)
Definition ex_g : list pair :=
  [pr xfb [] (le4 2); pr x02 [] (le4 2); pr x04 [] [x02; x99]; pr x05 [] [x02]; pr xf0 [x01] [x02; x03]].
Definition ex_in : list pair :=
  [pr x0e [x77] txid_a; pr x0f [] (le4 1); pr x13 [] (repeat x5a 64 ++ [x00]); pr x06 (toy_secp_uncompress pk_b) (le4 9 ++ le4 1)].
Definition ex_out : list pair :=
  [pr x06 [] [x01; xc0; x01; x52; x01; xc0; x01; x51]; pr x04 [x01; x02] p2wpkh_a; pr x03 [] (le_enc 8 6000)].
Definition ex_kept : bytes := sample_of ex_g [ex_in; sample_input_b] [sample_output_a; ex_out].
Definition dec2 (bs : bytes) : psbt := match psbt_deserialize bs with Ok p => p | _ => empty_psbt end.
Example C125_example :
  psbt_deserialize ex_kept = Ok (dec2 ex_kept)
  /\ maps_of ex_kept (dec2 ex_kept) ex_g [ex_in; sample_input_b] [sample_output_a; ex_out]
  /\ (exists lg lis los, maps_of (psbt_serialize (dec2 ex_kept)) (dec2 ex_kept) lg lis los)
  /\ global_pairs (p_global (dec2 ex_kept))
     = [pr xfb [] (le4 2); pr x02 [] (le4 2); pr x04 [] [x02]; pr x05 [] [x02]; pr x06 [] [x00]; pr xf0 [x01] [x02; x03]]
  /\ map input_pairs (firstn 1 (p_inputs (dec2 ex_kept)))
     = [[pr x0e [] txid_a; pr x0f [] (le4 1); pr x06 pk_b (le4 9 ++ le4 1); pr x13 [] (repeat x5a 64)]]
  /\ map output_pairs (skipn 1 (p_outputs (dec2 ex_kept)))
     = [[pr x03 [] (le_enc 8 6000); pr x04 [] p2wpkh_a; pr x06 [] [x01; xc0; x01; x51; x01; xc0; x01; x52]]].
Proof.
  assert (D : psbt_deserialize ex_kept = Ok (dec2 ex_kept)) by (vm_compute; reflexivity).
  split; [exact D|]. split.
  { rewrite <- (app_nil_r ex_kept). unfold ex_kept at 1. apply sample_of_maps; vm_compute; reflexivity. }
  split; [do 3 eexists; exact (@serialize_maps toy toy_laws ex_cfg _ (@deserialize_wf toy toy_laws ex_cfg _ _ D))|].
  split; [vm_compute; reflexivity|]. split; vm_compute; reflexivity.
Qed.

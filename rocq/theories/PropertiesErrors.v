(** C129, C130: what the errors of the decoders say is true of the bytes. *)
From Verif Require Import Base OMap Consensus ConsensusFacts Ext ExtInstance Raw RawFacts TapTree TapTreeFacts
  Serialize SerializeFacts MapCodec V2Global V2Input V2Output V2Psbt V2Roles SpecCodec SpecCodecFacts SpecPsbt V2PsbtFacts V2WireFacts
  V0Error V0Input V0Output V0Psbt V0PsbtFacts V0WireFacts SpecErrors ErrorFacts DecodeErrorFacts SampleV2 SampleV0.
Local Open Scope N_scope.

(** Used by the examples only; the theorems bind their own. *)
#[local] Existing Instance toy | 100.
#[local] Instance ex_cfg : Cfg | 100 := cfg_of false false.

(** ** C129: version 2 *)

Theorem C129_global : forall (X : Ext) (L : ExtLaws X) (C : Cfg) bs e,
  global_decode bs = Err e -> global_says feat_sp bs e.
Proof. intros X L C bs e. apply global_decode_says. Qed.
Print Assumptions C129_global.

Theorem C129_input : forall (X : Ext) (L : ExtLaws X) (C : Cfg) bs e,
  input_decode bs = Err e -> input_says feat_sp bs e.
Proof. intros X L C bs e. apply input_decode_says. Qed.
Print Assumptions C129_input.

Theorem C129_output : forall (X : Ext) (L : ExtLaws X) (C : Cfg) bs e,
  output_decode bs = Err e -> output_says feat_sp bs e.
Proof. intros X L C bs e. apply output_decode_says. Qed.
Print Assumptions C129_output.

Theorem C129_psbt : forall (X : Ext) (L : ExtLaws X) (C : Cfg) bs e,
  psbt_deserialize bs = Err e -> psbt_says feat_sp bs e.
Proof. intros X L C bs e. apply deserialize_says. Qed.
Print Assumptions C129_psbt.

(** A second input without a previous txid, and a second transaction version. *)
Definition no_txid : bytes := sample_of sample_global [sample_input_a; [pr x0f [] (le4 0)]] [sample_output_a; sample_output_b].
Definition two_versions : bytes := sample_of (sample_global ++ [pr x02 [] (le4 2)]) [sample_input_a; sample_input_b] [sample_output_a; sample_output_b].
Example C129_psbt_ex :
  psbt_deserialize no_txid = Err (DecodeInput IDMissingPreviousTxid)
  /\ psbt_deserialize two_versions = Err (DecodeGlobal (GDInsertPair (IDuplicateKey (Key x02 [])))).
Proof. split; vm_compute; reflexivity. Qed.

(** The only input count is called a duplicate when it follows the output count. *)
Theorem C129_count_refuted :
  exists l r k, psbt_deserialize ([x70; x73; x62; x74; xff] ++ map_bytes l ++ r) = Err (DecodeGlobal (GDInsertPair (IDuplicateKey k)))
    /\ NoDup (map p_key l).
Proof.
  exists [pr xfb [] (le4 2); pr x02 [] (le4 2); pr x05 [] [x00]; pr x04 [] [x00]], [], (Key x04 []).
  split; [vm_compute; reflexivity|]. cbn [map p_key pr]. repeat constructor; cbn [In]; intros H;
    repeat match goal with H : _ \/ _ |- _ => destruct H end; try discriminate; assumption.
Qed.
Print Assumptions C129_count_refuted.

(** A key that must have data is said to have to have none, because the value is empty. *)
Theorem C129_xpub_refuted :
  exists l k v, global_decode (map_bytes (l ++ [Pair k []])) = Err (GDInsertPair (IInvalidKeyDataNotEmpty k))
    /\ is_ok (global_decode (map_bytes (l ++ [Pair k v]))) = true.
Proof.
  exists [pr xfb [] (le4 2); pr x02 [] (le4 2); pr x04 [] [x00]; pr x05 [] [x00]], (Key x01 xpub_a), [x01; x02; x03; x04].
  split; vm_compute; reflexivity.
Qed.
Print Assumptions C129_xpub_refuted.

(** A scan key of the right length that is no point has the wrong length. *)
Theorem C129_share_refuted :
  exists bs, @global_decode toy (cfg_of true false) bs = Err (GDInsertPair (IKeyWrongLength 33 33)).
Proof. exists (map_bytes [pr x07 (repeat x09 33) pk_a]). vm_compute. reflexivity. Qed.
Print Assumptions C129_share_refuted.

(** An output index is missing although it is there. *)
Theorem C129_index_refuted :
  exists l, input_decode (map_bytes l) = Err IDMissingSpentOutputIndex /\ In x0f (map (fun p => k_type (p_key p)) l).
Proof.
  exists [pr x0e [] txid_a; pr x0f [] [xff; xff; xff; xff]]. split; [vm_compute; reflexivity|]. cbn. auto.
Qed.
Print Assumptions C129_index_refuted.

(** Apart from these a complaint about one pair is never about a pair that is fine: an error that
    names a key names the key of the pair that is refused, and a duplicate in an input map or an
    output map is one. *)
Theorem C129_key : forall (X : Ext) (L : ExtLaws X) (C : Cfg) bs e k,
  global_decode bs = Err (GDInsertPair e) -> (e = IDuplicateKey k \/ e = IInvalidKeyDataEmpty k \/ e = IInvalidKeyDataNotEmpty k) ->
  exists l p r, bs = flat_map ser_pair l ++ ser_pair p ++ r /\ k = p_key p.
Proof.
  intros X L C bs e k H E. apply global_decode_says in H. cbn [global_says] in H. destruct H as (l & p & r & -> & R).
  exists l, p, r. split; [reflexivity|]. revert R. generalize (global_shape feat_sp (k_type (p_key p))).
  intros sh R. unfold refused in R. cbv zeta in R.
  destruct sh; repeat match goal with
    | H : _ \/ _ |- _ => destruct H
    | H : _ /\ _ |- _ => destruct H
    | H : exists _, _ |- _ => destruct H
    | own : bool |- _ => destruct own
    end; congruence.
Qed.
Print Assumptions C129_key.

Theorem C129_duplicate_input : forall (X : Ext) (L : ExtLaws X) (C : Cfg) bs k,
  input_decode bs = Err (IDInsertPair (IDuplicateKey k)) ->
  exists l p r q, bs = flat_map ser_pair l ++ ser_pair p ++ r /\ k = p_key p /\ In q l /\ k_type (p_key q) = k_type k.
Proof.
  intros X L C bs k H. apply input_decode_says in H. cbn [input_says] in H. destruct H as (l & p & r & -> & R).
  exists l, p, r.
  assert (S0 : match input_shape feat_sp (k_type (p_key p)) with HCount | HXpub | HTx0 | HXpub0 | HVersion | HVersion0 => False | _ => True end).
  { clear. unfold input_shape. destruct feat_sp, (k_type (p_key p)); exact I. }
  revert S0 R. generalize (input_shape feat_sp (k_type (p_key p))). intros sh S0 R. unfold refused in R. cbv zeta in R.
  destruct sh; try destruct S0; repeat match goal with
    | H : _ \/ _ |- _ => destruct H
    | H : _ /\ _ |- _ => destruct H
    | H : earlier _ _ _ |- _ => destruct H
    | H : exists _, _ |- _ => destruct H
    | own : bool |- _ => destruct own
    end; try congruence;
    match goal with H : In ?q l |- _ => exists q end; repeat split; auto; congruence.
Qed.
Print Assumptions C129_duplicate_input.

Theorem C129_duplicate_output : forall (X : Ext) (L : ExtLaws X) (C : Cfg) bs k,
  output_decode bs = Err (ODInsertPair (IDuplicateKey k)) ->
  exists l p r q, bs = flat_map ser_pair l ++ ser_pair p ++ r /\ k = p_key p /\ In q l /\ k_type (p_key q) = k_type k.
Proof.
  intros X L C bs k H. apply output_decode_says in H. cbn [output_says] in H. destruct H as (l & p & r & -> & R).
  exists l, p, r.
  assert (S0 : match output_shape feat_sp (k_type (p_key p)) with HCount | HXpub | HTx0 | HXpub0 | HVersion | HVersion0 => False | _ => True end).
  { clear. unfold output_shape. destruct feat_sp, (k_type (p_key p)); exact I. }
  revert S0 R. generalize (output_shape feat_sp (k_type (p_key p))). intros sh S0 R. unfold refused in R. cbv zeta in R.
  destruct sh; try destruct S0; repeat match goal with
    | H : _ \/ _ |- _ => destruct H
    | H : _ /\ _ |- _ => destruct H
    | H : earlier _ _ _ |- _ => destruct H
    | H : exists _, _ |- _ => destruct H
    | own : bool |- _ => destruct own
    end; try congruence;
    match goal with H : In ?q l |- _ => exists q end; repeat split; auto; congruence.
Qed.
Print Assumptions C129_duplicate_output.

Example C129_duplicate_ex :
  input_decode (map_bytes (sample_input_a ++ [pr x0e [] txid_b])) = Err (IDInsertPair (IDuplicateKey (Key x0e []))).
Proof. vm_compute. reflexivity. Qed.

(** ** C130: version 0 *)

Theorem C130_input : forall (X : Ext) (L : ExtLaws X) bs e,
  input0_decode bs = Err e -> map0_says input0_shape bs e.
Proof. intros X L bs e. apply input0_decode_says. Qed.
Print Assumptions C130_input.

Theorem C130_output : forall (X : Ext) (L : ExtLaws X) bs e,
  output0_decode bs = Err e -> map0_says output0_shape bs e.
Proof. intros X L bs e. apply output0_decode_says. Qed.
Print Assumptions C130_output.

Theorem C130_psbt : forall (X : Ext) (L : ExtLaws X) bs e, psbt0_deserialize bs = Err e -> psbt0_says bs e.
Proof. intros X L bs e. apply deserialize0_says. Qed.
Print Assumptions C130_psbt.

(** A transaction with a script in an input; a map that ends too early; a preimage that is wrong. *)
Definition signed_tx : tx := Tx 2 7 [TxIn txid_a 1 [x51] 4294967293 []] [].
Example C130_psbt_ex :
  psbt0_deserialize (sample_of [pr x00 [] (enc_tx_nowit signed_tx)] [[]] []) = Err E0UnsignedTxHasScriptSigs
  /\ psbt0_deserialize (sample_of [pr xfb [] (le4 0)] [] []) = Err E0MustHaveUnsignedTx
  /\ psbt0_deserialize (sample_of sample0_global [sample0_input_a; [pr x0b (repeat x00 32) pre_a]] [])
     = Err (E0InvalidPreimageHashPair HSha256 pre_a (repeat x00 32))
  /\ psbt0_deserialize (sample_of (sample0_global ++ [pr x01 xpub_a (le4 9)]) [] []) = Err (E0XPubKey 3).
Proof. repeat split; vm_compute; reflexivity. Qed.

(** Every key that an error names is the key of a pair, a second one if it is called a duplicate. *)
Theorem C130_duplicate : forall (X : Ext) (L : ExtLaws X) bs k,
  psbt0_deserialize bs = Err (E0DuplicateKey k) ->
  exists a l p r q, bs = a ++ flat_map ser_pair l ++ ser_pair p ++ r /\ k = p_key p /\ In q l /\ k_type (p_key q) = k_type k.
Proof.
  intros X L bs k H. apply deserialize0_says in H.
  assert (Q : forall sh d, (forall t, shape0 (sh t) = true) -> map0_says sh d (E0DuplicateKey k) ->
    exists l p r q, d = flat_map ser_pair l ++ ser_pair p ++ r /\ k = p_key p /\ In q l /\ k_type (p_key q) = k_type k).
  { intros sh d S0 [(e & (l & p & r & -> & R) & M)|(s & _ & M)].
    2:{ destruct s; discriminate M. }
    exists l, p, r. specialize (S0 (k_type (p_key p))). revert S0 R. generalize (sh (k_type (p_key p))). intros f S0 R.
    unfold refused in R. cbv zeta in R.
    destruct f; cbn [shape0] in S0; try discriminate S0; repeat match goal with
      | H : _ \/ _ |- _ => destruct H
      | H : _ /\ _ |- _ => destruct H
      | H : earlier _ _ _ |- _ => destruct H
      | H : exists _, _ |- _ => destruct H
      | own : bool |- _ => destruct own; [discriminate S0|]
      end; subst e; cbn [means0] in M; try discriminate M; try match type of M with _ /\ _ => destruct M as [_ M]; discriminate M end;
      try match goal with s : serr |- _ => destruct s; discriminate M end;
      injection M as ->; match goal with H : In ?q l |- _ => exists q end; repeat split; auto. }
  destruct H as [[H _]|[[H _]|[H|[H|[H|H]]]]]; try discriminate H.
  - destruct H as (d & d' & -> & _ & [H|[H _]]); [|discriminate H].
    apply Q in H as (l & p & r & q & -> & H); [|exact global0_shape0].
    exists [x70; x73; x62; x74; xff], l, p, (r ++ d'), q. split; [|exact H]. rewrite <- !app_assoc. reflexivity.
  - destruct H as (lg & r & t & _ & _ & H & _). discriminate H.
  - destruct H as (lg & lis & d & t & -> & _ & _ & H). apply Q in H as (l & p & r & q & -> & H); [|exact input0_shape0].
    exists ([x70; x73; x62; x74; xff] ++ map_bytes lg ++ concat (map map_bytes lis)), l, p, r, q. split; [|exact H].
    rewrite <- !app_assoc. reflexivity.
  - destruct H as (lg & lis & los & d & t & -> & _ & _ & _ & H). apply Q in H as (l & p & r & q & -> & H); [|exact output0_shape0].
    exists ([x70; x73; x62; x74; xff] ++ map_bytes lg ++ concat (map map_bytes lis) ++ concat (map map_bytes los)), l, p, r, q.
    split; [|exact H]. rewrite <- !app_assoc. reflexivity.
Qed.
Print Assumptions C130_duplicate.

Example C130_duplicate_ex :
  psbt0_deserialize (sample_of sample0_global [sample0_input_a ++ [pr x01 [] (le_enc 8 5000 ++ [x16] ++ p2wpkh_a)]] [])
  = Err (E0DuplicateKey (Key x01 [])).
Proof. vm_compute. reflexivity. Qed.

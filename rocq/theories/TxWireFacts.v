(** The transaction codec of the model implements the format of [SpecTx]. *)
From Verif Require Import Base Consensus ConsensusFacts Ext Raw SpecCodec SpecCodecFacts SpecTx.
Local Open Scope N_scope.

Lemma int_wire_iff k n b : n < 256 ^ N.of_nat k -> int_wire k n b <-> b = le_enc k n.
Proof.
  intros H. unfold int_wire. rewrite le_value_dec. split.
  - intros [L <-]. rewrite <- L. symmetry. apply le_enc_dec.
  - intros ->. split; [apply le_enc_length|now apply le_dec_enc].
Qed.
Lemma int_wire_inv k n b : int_wire k n b -> b = le_enc k n /\ n < 256 ^ N.of_nat k.
Proof.
  intros [L V]. rewrite le_value_dec in V. subst n k. split; [symmetry; apply le_enc_dec|apply le_dec_lt].
Qed.
Lemma u32_wire n b : int_wire 4 n b <-> wf_u32 n /\ b = enc_u32 n.
Proof.
  split.
  - intros H. apply int_wire_inv in H as [-> H]. split; [exact H|reflexivity].
  - intros [H ->]. now apply int_wire_iff.
Qed.
Lemma u64_wire n b : int_wire 8 n b <-> wf_u64 n /\ b = enc_u64 n.
Proof.
  split.
  - intros H. apply int_wire_inv in H as [-> H]. split; [exact H|reflexivity].
  - intros [H ->]. now apply int_wire_iff.
Qed.
Lemma size_wire n c : compact_size n c <-> n < U64 /\ c = enc_varint n.
Proof.
  split.
  - intros H. apply compact_size_enc in H as [-> H]. auto.
  - intros [H ->]. now apply enc_varint_spec.
Qed.
Lemma string_wire_iff s b : string_wire s b <-> wf_vec s /\ b = enc_bytes s.
Proof.
  unfold string_wire, enc_bytes, wf_vec. split.
  - intros (l & H & ->). apply size_wire in H as [H ->]. auto.
  - intros [H ->]. exists (enc_varint (blen s)). split; [now apply size_wire|reflexivity].
Qed.
Lemma F2_wire {A} (w : A -> bytes -> Prop) (wf : A -> Prop) enc l bs :
  (forall a b, w a b <-> wf a /\ b = enc a) -> Forall2 w l bs <-> Forall wf l /\ bs = map enc l.
Proof.
  intros E. split.
  - induction 1 as [|a b l bs H _ [F ->]]; [split; constructor|]. apply E in H as [H ->]. split; [now constructor|reflexivity].
  - intros [F ->]. induction F; cbn; constructor; auto. apply E. auto.
Qed.
Lemma list_wire_iff {A} (w : A -> bytes -> Prop) (wf : A -> Prop) enc l b :
  (forall a b, w a b <-> wf a /\ b = enc a) -> list_wire w l b <-> (wf_vec l /\ Forall wf l) /\ b = enc_vec enc l.
Proof.
  intros E. unfold list_wire, enc_vec, wf_vec, enc_all. split.
  - intros (n & bs & H & F & ->). apply size_wire in H as [H ->]. apply (F2_wire _ wf enc) in F as [F ->]; [|exact E]. auto.
  - intros [[H F] ->]. exists (enc_varint (blen l)), (map enc l). split; [now apply size_wire|].
    split; [|reflexivity]. now apply (F2_wire _ wf enc).
Qed.
Lemma txout_wire_iff o b : txout_wire o b <-> wf_txout o /\ b = enc_txout o.
Proof.
  unfold txout_wire, wf_txout, enc_txout. split.
  - intros (v & s & H1 & H2 & ->). apply u64_wire in H1 as [H1 ->]. apply string_wire_iff in H2 as [H2 ->]. auto.
  - intros [[H1 H2] ->]. exists (enc_u64 (to_value o)), (enc_bytes (to_script o)).
    split; [now apply u64_wire|]. split; [now apply string_wire_iff|reflexivity].
Qed.

(** Without regard to the witness. *)
Definition wf_txin_base (i : txin) : Prop :=
  length (ti_txid i) = 32%nat /\ wf_u32 (ti_vout i) /\ wf_vec (ti_script_sig i) /\ wf_u32 (ti_sequence i).
Lemma txin_wire_iff i b : txin_wire i b <-> wf_txin_base i /\ b = enc_txin i.
Proof.
  unfold txin_wire, wf_txin_base, enc_txin. split.
  - intros (n & s & q & H0 & H1 & H2 & H3 & ->). apply u32_wire in H1 as [H1 ->]. apply u32_wire in H3 as [H3 ->].
    apply string_wire_iff in H2 as [H2 ->]. auto.
  - intros [(H0 & H1 & H2 & H3) ->]. exists (enc_u32 (ti_vout i)), (enc_bytes (ti_script_sig i)), (enc_u32 (ti_sequence i)).
    split; [assumption|]. split; [now apply u32_wire|]. split; [now apply string_wire_iff|].
    split; [now apply u32_wire|reflexivity].
Qed.

Lemma fits_iff w : witness_fits w <-> wf_witness w.
Proof.
  unfold witness_fits, wf_witness, MAX_VEC_SIZE. split.
  - intros (bs & F & H). apply (F2_wire _ wf_vec enc_bytes) in F as [_ ->]; [|exact string_wire_iff].
    now rewrite <- wit_size_len.
  - intros H. exists (map enc_bytes w). split.
    + apply (F2_wire _ wf_vec enc_bytes); [exact string_wire_iff|]. split; [|reflexivity].
      clear -H. revert H. induction w as [|e w IH]; intros H; constructor; cbn [wit_size] in H.
      * unfold wf_vec, U64. lia.
      * apply IH. lia.
    + change (concat (map enc_bytes w)) with (enc_all enc_bytes w). now rewrite wit_size_len.
Qed.
Lemma witness_wire_iff w b : witness_fits w -> witness_wire w b <-> b = enc_witness w.
Proof.
  intros H. unfold witness_wire, enc_witness. rewrite (list_wire_iff _ wf_vec enc_bytes); [|exact string_wire_iff].
  split; [tauto|]. intros ->. split; [|reflexivity]. pose proof H as (bs & F & _).
  apply (F2_wire _ wf_vec enc_bytes) in F as [F _]; [|exact string_wire_iff]. split; [|exact F].
  apply fits_iff in H. pose proof (wit_size_count w). unfold wf_witness, MAX_VEC_SIZE, wf_vec, U64, witness, bytes in *. lia.
Qed.
Lemma wf_txin_split i : wf_txin i <-> wf_txin_base i /\ witness_fits (ti_witness i).
Proof. rewrite fits_iff. unfold wf_txin, wf_txin_base. tauto. Qed.
Lemma wf_txins_split l : Forall wf_txin l <-> Forall wf_txin_base l /\ Forall (fun i => witness_fits (ti_witness i)) l.
Proof.
  split.
  - intros H. split; (eapply Forall_impl; [|exact H]); intros i Hi; now apply wf_txin_split in Hi.
  - intros [H1 H2]. rewrite Forall_forall in *. intros i Hi. apply wf_txin_split. auto.
Qed.

Lemma legacy_wire_iff t b : legacy_wire t b <->
  (wf_u32 (tx_version t) /\ wf_u32 (tx_lock_time t) /\ wf_vec (tx_input t) /\ Forall wf_txin_base (tx_input t)
   /\ wf_vec (tx_output t) /\ Forall wf_txout (tx_output t)) /\ b = enc_tx_nowit t.
Proof.
  unfold legacy_wire, enc_tx_nowit. split.
  - intros (v & ins & outs & l & H1 & H2 & H3 & H4 & ->). apply u32_wire in H1 as [H1 ->]. apply u32_wire in H4 as [H4 ->].
    apply (list_wire_iff _ _ _ _ _ txin_wire_iff) in H2 as [[H2 H2'] ->].
    apply (list_wire_iff _ _ _ _ _ txout_wire_iff) in H3 as [[H3 H3'] ->]. auto 10.
  - intros [(H1 & H2 & H3 & H4 & H5 & H6) ->]. eexists _, _, _, _.
    split; [apply u32_wire; split; [exact H1|reflexivity]|].
    split; [apply (list_wire_iff _ _ _ _ _ txin_wire_iff); split; [split; [exact H3|exact H4]|reflexivity]|].
    split; [apply (list_wire_iff _ _ _ _ _ txout_wire_iff); split; [split; [exact H5|exact H6]|reflexivity]|].
    split; [apply u32_wire; split; [exact H2|reflexivity]|reflexivity].
Qed.

Definition enc_tx_wit (t : tx) : bytes :=
  enc_u32 (tx_version t) ++ [x00; x01] ++ enc_vec enc_txin (tx_input t) ++ enc_vec enc_txout (tx_output t)
  ++ enc_all (fun i => enc_witness (ti_witness i)) (tx_input t) ++ enc_u32 (tx_lock_time t).
Lemma witnesses_wire l ws : Forall (fun i => witness_fits (ti_witness i)) l ->
  Forall2 (fun i => witness_wire (ti_witness i)) l ws <-> ws = map (fun i => enc_witness (ti_witness i)) l.
Proof.
  intros H. split.
  - intros F. induction F as [|i b l ws Hb F IH]; [reflexivity|]. inversion H; subst. cbn. f_equal; [|auto].
    now apply witness_wire_iff.
  - intros ->. induction H; cbn; constructor; auto. now apply witness_wire_iff.
Qed.
Lemma segwit_wire_iff t b : Forall (fun i => witness_fits (ti_witness i)) (tx_input t) -> segwit_wire t b <->
  (wf_u32 (tx_version t) /\ wf_u32 (tx_lock_time t) /\ wf_vec (tx_input t) /\ Forall wf_txin_base (tx_input t)
   /\ wf_vec (tx_output t) /\ Forall wf_txout (tx_output t)) /\ b = enc_tx_wit t.
Proof.
  intros Hw. unfold segwit_wire, enc_tx_wit. split.
  - intros (v & ins & outs & ws & l & H1 & H2 & H3 & H5 & H4 & ->). apply u32_wire in H1 as [H1 ->]. apply u32_wire in H4 as [H4 ->].
    apply (list_wire_iff _ _ _ _ _ txin_wire_iff) in H2 as [[H2 H2'] ->].
    apply (list_wire_iff _ _ _ _ _ txout_wire_iff) in H3 as [[H3 H3'] ->].
    apply witnesses_wire in H5 as ->; [|exact Hw]. auto 10.
  - intros [(H1 & H2 & H3 & H4 & H5 & H6) ->]. eexists _, _, _, (map (fun i => enc_witness (ti_witness i)) (tx_input t)), _.
    split; [apply u32_wire; split; [exact H1|reflexivity]|].
    split; [apply (list_wire_iff _ _ _ _ _ txin_wire_iff); split; [split; [exact H3|exact H4]|reflexivity]|].
    split; [apply (list_wire_iff _ _ _ _ _ txout_wire_iff); split; [split; [exact H5|exact H6]|reflexivity]|].
    split; [now apply witnesses_wire|].
    split; [apply u32_wire; split; [exact H2|reflexivity]|reflexivity].
Qed.

Lemma segwit_cases t :
  (tx_segwit t = false /\ tx_input t <> [] /\ Forall (fun i => ti_witness i = []) (tx_input t))
  \/ (tx_segwit t = true /\ (tx_input t = [] \/ Exists (fun i => ti_witness i <> []) (tx_input t))).
Proof.
  unfold tx_segwit. destruct (existsb _ _) eqn:E.
  - right. split; [reflexivity|]. right. apply existsb_exists in E as (i & Hi & E). apply Exists_exists. exists i.
    split; [exact Hi|]. destruct (ti_witness i); [discriminate|discriminate].
  - destruct (tx_input t) as [|i l] eqn:Ei; [right; auto|]. left. split; [reflexivity|]. split; [discriminate|].
    apply Forall_forall. intros j Hj. destruct (ti_witness j) eqn:Ew; [reflexivity|].
    assert (A : existsb (fun i => negb (match ti_witness i with [] => true | _ => false end)) (i :: l) = true).
    { apply existsb_exists. exists j. rewrite Ew. auto. }
    rewrite A in E. discriminate.
Qed.

Lemma tx_wire_iff t b : Forall (fun i => witness_fits (ti_witness i)) (tx_input t) ->
  tx_wire t b <-> wf_tx t /\ b = enc_tx t.
Proof.
  intros Hw. unfold wf_tx. rewrite wf_txins_split. unfold enc_tx. fold (enc_tx_wit t).
  destruct (segwit_cases t) as [(E & N & F)|(E & N)]; rewrite E; split.
  - intros [_ _ H|[H|H] _]; [|tauto|].
    + apply legacy_wire_iff in H. tauto.
    + exfalso. apply Exists_exists in H as (i & Hi & H). rewrite Forall_forall in F. auto.
  - intros H. apply TWLegacy; [exact N|exact F|]. apply legacy_wire_iff. tauto.
  - intros [H1 H2 _|_ H]; [exfalso|].
    + destruct N as [N|N]; [tauto|]. apply Exists_exists in N as (i & Hi & N). rewrite Forall_forall in H2. auto.
    + apply segwit_wire_iff in H; [|exact Hw]. tauto.
  - intros H. apply TWSegwit; [exact N|]. apply segwit_wire_iff; [exact Hw|]. tauto.
Qed.
Lemma wf_tx_fits t : wf_tx t -> Forall (fun i => witness_fits (ti_witness i)) (tx_input t).
Proof. intros (_ & _ & _ & H & _). now apply wf_txins_split in H. Qed.

Lemma dec_tx_iff bs t rest : dec_tx bs = Ok (t, rest) <->
  Forall (fun i => witness_fits (ti_witness i)) (tx_input t) /\ exists b, tx_wire t b /\ bs = b ++ rest.
Proof.
  split.
  - intros H. apply dec_tx_canon in H as [-> W]. pose proof (wf_tx_fits _ W) as F. split; [exact F|].
    exists (enc_tx t). split; [|reflexivity]. now apply tx_wire_iff.
  - intros [F (b & H & ->)]. apply tx_wire_iff in H as [W ->]; [|exact F]. now apply dec_tx_rt.
Qed.

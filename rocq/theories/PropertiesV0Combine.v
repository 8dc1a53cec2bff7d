(** C35-C40, C57, C58 for v0: combining PSBTs (src/v0/bitcoin/mod.rs:224-287). *)
From Verif Require Import Base OMap Consensus ConsensusFacts Ext ExtInstance Raw RawFacts TapTree Serialize SerializeFacts MapCodec
  V2Global V2Psbt SpecCodec SpecPsbt V2CodecFacts V2WireFacts SpecCodecFacts V2PsbtFacts SpecCombine V2CombineFacts SampleV2 PropertiesV2Combine
  V0Error V0Input V0Output V0Psbt SpecPsbt0 V0PsbtFacts V0WireFacts V0PairFacts SpecCombine0 V0CombineFacts SampleV0.
Local Open Scope N_scope.

(** Used by the examples only; the theorems bind their own. *)
#[local] Existing Instance toy | 100.

(** PSBTs with one input and one output and some further pairs, for the examples. *)
Definition cx0_tx : tx := Tx 2 0 [TxIn txid_a 1 [] 4294967295 []] [TxOut 4000 p2wpkh_a].
Definition cx0_bytes (g i o : list pair) : bytes := sample_of (pr x00 [] (enc_tx_nowit cx0_tx) :: g) [i] [o].
Notation cx0_res g i o := (@psbt0_deserialize toy (cx0_bytes g i o)) (only parsing).
Definition cx0_bad : psbt0 := Psbt0 cx0_tx 0 [] [] [] [] [].
Definition cx0 (g i o : list pair) : psbt0 := match cx0_res g i o with Ok p => p | _ => cx0_bad end.
Lemma cx0_wf g i o : is_ok (cx0_res g i o) = true -> @wf_psbt0 toy (cx0 g i o).
Proof.
  unfold cx0. destruct (cx0_res g i o) as [p| |] eqn:E; try discriminate. intros _. exact (@deserialize0_wf toy toy_laws _ _ E).
Qed.
Definition comb0 (a b : psbt0) : psbt0 := match psbt0_combine a b with Ok c => c | _ => cx0_bad end.

(** ** C35: commutativity *)

Theorem C35_v0_commutative_refuted : exists a b c d,
  @wf_psbt0 toy a /\ @wf_psbt0 toy b /\ p0_unsigned_tx a = p0_unsigned_tx b /\
  psbt0_combine a b = Ok c /\ psbt0_combine b a = Ok d /\ p0_unknown c <> p0_unknown d.
Proof.
  exists (cx0 [pr xf0 [] [x01]] [] []), (cx0 [pr xf0 [] [x02]] [] []),
    (comb0 (cx0 [pr xf0 [] [x01]] [] []) (cx0 [pr xf0 [] [x02]] [] [])),
    (comb0 (cx0 [pr xf0 [] [x02]] [] []) (cx0 [pr xf0 [] [x01]] [] [])).
  split; [apply cx0_wf; vm_compute; reflexivity|]. split; [apply cx0_wf; vm_compute; reflexivity|].
  split; [vm_compute; reflexivity|]. split; [vm_compute; reflexivity|]. split; [vm_compute; reflexivity|].
  vm_compute. intros H. discriminate H.
Qed.
Print Assumptions C35_v0_commutative_refuted.

(** Even without any conflicting values: the sighash type is not combined. *)
Theorem C35_v0_no_conflict_refuted : exists a b c d,
  @wf_psbt0 toy a /\ @wf_psbt0 toy b /\
  no_conflict (global0_pairs a) (global0_pairs b) /\
  Forall2 (fun i j => no_conflict (input0_pairs i) (input0_pairs j)) (p0_inputs a) (p0_inputs b) /\
  Forall2 (fun i j => no_conflict (output0_pairs i) (output0_pairs j)) (p0_outputs a) (p0_outputs b) /\
  psbt0_combine a b = Ok c /\ psbt0_combine b a = Ok d /\
  map i0_sighash_type (p0_inputs c) = [Some 1] /\ map i0_sighash_type (p0_inputs d) = [None].
Proof.
  exists (cx0 [] [pr x03 [] (le4 1)] []), (cx0 [] [] []),
    (comb0 (cx0 [] [pr x03 [] (le4 1)] []) (cx0 [] [] [])), (comb0 (cx0 [] [] []) (cx0 [] [pr x03 [] (le4 1)] [])).
  split; [apply cx0_wf; vm_compute; reflexivity|]. split; [apply cx0_wf; vm_compute; reflexivity|].
  split; [|split; [|split]].
  - apply no_conflictb_ok. vm_compute. reflexivity.
  - apply (forall2b_ok (fun i j => no_conflictb (input0_pairs i) (input0_pairs j))); [intros i j; apply no_conflictb_ok|]. vm_compute. reflexivity.
  - apply (forall2b_ok (fun i j => no_conflictb (output0_pairs i) (output0_pairs j))); [intros i j; apply no_conflictb_ok|]. vm_compute. reflexivity.
  - split; [vm_compute; reflexivity|]. split; [vm_compute; reflexivity|]. split; vm_compute; reflexivity.
Qed.
Print Assumptions C35_v0_no_conflict_refuted.

Theorem C35_v0_commutes_if_compatible : forall (X : Ext) (L : ExtLaws X) a b,
  wf_psbt0 a -> wf_psbt0 b -> compatible0 a b ->
  exists c d, psbt0_combine a b = Ok c /\ psbt0_combine b a = Ok d /\ psbt0_eq c d.
Proof. intros X L a b Ha Hb H. exact (psbt0_combine_comm a b Ha Hb H). Qed.
Print Assumptions C35_v0_commutes_if_compatible.

Definition cx0_left : psbt0 :=
  cx0 [pr xf0 [] [x01]; xpub_pair x05 [1; 2]] [pr x01 [] utxo_bytes; pr x06 pk_a (le4 9); pr x03 [] (le4 1)] [].
Definition cx0_right : psbt0 :=
  cx0 [pr xf3 [x01] [x02]; xpub_pair x05 [1; 2]] [pr x01 [] utxo_bytes; pr x06 pk_b (le4 7); pr x03 [] (le4 1)] [pr x00 [] [x51]].
Lemma cx0_left_wf : @wf_psbt0 toy cx0_left.
Proof. apply cx0_wf. vm_compute. reflexivity. Qed.
Lemma cx0_right_wf : @wf_psbt0 toy cx0_right.
Proof. apply cx0_wf. vm_compute. reflexivity. Qed.

Example C35_v0_example : wf_psbt0 cx0_left /\ wf_psbt0 cx0_right /\ compatible0 cx0_left cx0_right
  /\ map (fun i => length (i0_bip32_derivation i)) (p0_inputs (comb0 cx0_left cx0_right)) = [2%nat]
  /\ map (fun i => length (i0_bip32_derivation i)) (p0_inputs cx0_left) = [1%nat].
Proof.
  split; [exact cx0_left_wf|]. split; [exact cx0_right_wf|]. split; [|vm_compute; auto].
  split; [apply no_conflictb_ok; vm_compute; reflexivity|]. split.
  - apply (forall2b_ok (fun i j => no_conflictb (input0_pairs i) (input0_pairs j)
      && negb (isnone (i0_sighash_type i)) && negb (isnone (i0_sighash_type j)) && isnone (i0_non_witness_utxo i) && isnone (i0_non_witness_utxo j)));
      [|vm_compute; reflexivity].
    intros i j H. apply andb_true_iff in H as [H H4]. apply andb_true_iff in H as [H H3]. apply andb_true_iff in H as [H H2]. apply andb_true_iff in H as [H H1].
    split; [now apply no_conflictb_ok|]. split.
    + destruct (i0_sighash_type i), (i0_sighash_type j); try discriminate. split; intros Q; discriminate Q.
    + intros _. destruct (i0_non_witness_utxo i), (i0_non_witness_utxo j); try discriminate. auto.
  - apply (forall2b_ok (fun i j => no_conflictb (output0_pairs i) (output0_pairs j))); [intros i j; apply no_conflictb_ok|]. vm_compute. reflexivity.
Qed.

(** ** C36: idempotence *)

Theorem C36_v0_idempotent : forall (X : Ext) p, sorted_psbt0 p -> psbt0_combine p p = Ok p.
Proof. intros X p H. now apply psbt0_combine_self. Qed.
Print Assumptions C36_v0_idempotent.

Theorem C36_v0_decoded : forall (X : Ext) (L : ExtLaws X) bs p, psbt0_deserialize bs = Ok p -> psbt0_combine p p = Ok p.
Proof. intros X L bs p H. apply psbt0_combine_self, wf_sorted0. now apply deserialize0_wf in H. Qed.
Print Assumptions C36_v0_decoded.

Example C36_v0_example : sorted_psbt0 sample0 /\ psbt0_combine sample0 sample0 = Ok sample0.
Proof.
  assert (H : sorted_psbt0 sample0) by exact (wf_sorted0 _ (@deserialize0_wf toy toy_laws _ _ sample0_decodes)).
  split; [exact H|]. exact (C36_v0_idempotent _ _ H).
Qed.

(** ** C37: nothing is lost or invented *)

Theorem C37_v0_values_come_from_arguments : forall (X : Ext) (L : ExtLaws X) a b c, psbt0_combine a b = Ok c ->
  (forall p, In p (global0_pairs c) -> In p (global0_pairs a) \/ In p (global0_pairs b)) /\
  (forall n ic p, nth_error (p0_inputs c) n = Some ic -> In p (input0_pairs ic) ->
     exists i, (nth_error (p0_inputs a) n = Some i \/ nth_error (p0_inputs b) n = Some i) /\ In p (input0_pairs i)) /\
  (forall n oc p, nth_error (p0_outputs c) n = Some oc -> In p (output0_pairs oc) ->
     exists o, (nth_error (p0_outputs a) n = Some o \/ nth_error (p0_outputs b) n = Some o) /\ In p (output0_pairs o)).
Proof.
  intros X L a b c H. apply psbt0_combine_ok in H as (_ & xs & Hx & ->). split; [|split].
  - intros p. now apply combined0_from.
  - intros n ic p Hn Hp. destruct (zip_combine_nth _ _ _ _ _ Hn) as (i & Ha & Hb & Hc).
    destruct (nth_error (p0_inputs b) n) as [j|].
    + rewrite (Hb j eq_refl) in Hp. destruct (input0_combine_from _ _ _ Hp); eauto.
    + rewrite (Hc eq_refl) in Hp. eauto.
  - intros n oc p Hn Hp. destruct (zip_combine_nth _ _ _ _ _ Hn) as (o & Ha & Hb & Hc).
    destruct (nth_error (p0_outputs b) n) as [j|].
    + rewrite (Hb j eq_refl) in Hp. destruct (output0_combine_from _ _ _ Hp); eauto.
    + rewrite (Hc eq_refl) in Hp. eauto.
Qed.
Print Assumptions C37_v0_values_come_from_arguments.

(** Keys are kept, with these exceptions: a sighash type that only the second PSBT has, and
    non-witness utxos of inputs for which only the second PSBT has a witness utxo. *)
Theorem C37_v0_keys_kept_partial : forall (X : Ext) (L : ExtLaws X) a b c, psbt0_combine a b = Ok c ->
  length (p0_inputs c) = length (p0_inputs a) /\ length (p0_outputs c) = length (p0_outputs a) /\
  (forall k, In k (keys (global0_pairs a)) \/ In k (keys (global0_pairs b)) -> In k (keys (global0_pairs c))) /\
  (forall n ia ic k, nth_error (p0_inputs a) n = Some ia -> nth_error (p0_inputs c) n = Some ic ->
     In k (keys (input0_pairs ia)) ->
     In k (keys (input0_pairs ic)) \/ exists ib, nth_error (p0_inputs b) n = Some ib /\ lost_first0 ia ib k) /\
  (forall n ia ib ic k, nth_error (p0_inputs a) n = Some ia -> nth_error (p0_inputs b) n = Some ib -> nth_error (p0_inputs c) n = Some ic ->
     In k (keys (input0_pairs ib)) -> In k (keys (input0_pairs ic)) \/ lost_second0 ia ib k) /\
  (forall n oa oc k, nth_error (p0_outputs a) n = Some oa \/ nth_error (p0_outputs b) n = Some oa -> nth_error (p0_outputs c) n = Some oc ->
     In k (keys (output0_pairs oa)) -> In k (keys (output0_pairs oc))).
Proof.
  intros X L a b c H. apply psbt0_combine_ok in H as (_ & xs & Hx & ->).
  cbn [combined0 p0_inputs p0_outputs]. split; [apply zip_combine_length|]. split; [apply zip_combine_length|].
  split; [intros k [Hk|Hk]; [now apply combined0_keys_left|now apply combined0_keys_right]|]. split; [|split].
  - intros n ia ic k Ha Hc Hk. destruct (zip_combine_nth _ _ _ _ _ Hc) as (i & Ha' & Hb & Hn). rewrite Ha in Ha'. apply Some_inj in Ha'. subst i.
    destruct (nth_error (p0_inputs b) n) as [ib|].
    + rewrite (Hb ib eq_refl). destruct (input0_combine_keys_left ia ib k Hk); eauto.
    + rewrite (Hn eq_refl). auto.
  - intros n ia ib ic k Ha Hb Hc Hk. destruct (zip_combine_nth _ _ _ _ _ Hc) as (i & Ha' & Hb' & _). rewrite Ha in Ha'. apply Some_inj in Ha'. subst i.
    rewrite (Hb' ib Hb). now apply input0_combine_keys_right.
  - intros n oa oc k Hoa Hoc Hk. destruct (zip_combine_nth _ _ _ _ _ Hoc) as (o & Ha & Hb & Hn).
    destruct (nth_error (p0_outputs b) n) as [ob|].
    + rewrite (Hb ob eq_refl). apply output0_combine_keys. destruct Hoa as [Q|Q].
      * rewrite Ha in Q. apply Some_inj in Q. subst. auto.
      * apply Some_inj in Q. subst. auto.
    + rewrite (Hn eq_refl). destruct Hoa as [Q|Q]; [|discriminate]. rewrite Ha in Q. apply Some_inj in Q. now subst.
Qed.
Print Assumptions C37_v0_keys_kept_partial.

Theorem C37_v0_sighash_refuted : exists a b c, @wf_psbt0 toy a /\ @wf_psbt0 toy b /\
  psbt0_combine a b = Ok c /\ map i0_sighash_type (p0_inputs b) = [Some 131] /\ map i0_sighash_type (p0_inputs c) = [None].
Proof.
  exists (cx0 [] [] []), (cx0 [] [pr x03 [] (le4 131)] []), (comb0 (cx0 [] [] []) (cx0 [] [pr x03 [] (le4 131)] [])).
  split; [apply cx0_wf; vm_compute; reflexivity|]. split; [apply cx0_wf; vm_compute; reflexivity|].
  split; [vm_compute; reflexivity|]. split; vm_compute; reflexivity.
Qed.
Print Assumptions C37_v0_sighash_refuted.
(** Both PSBTs have the non-witness utxo, the result has not. *)
Theorem C37_v0_utxo_refuted : exists a b c t, @wf_psbt0 toy a /\ @wf_psbt0 toy b /\
  psbt0_combine a b = Ok c /\ map i0_non_witness_utxo (p0_inputs a) = [Some t] /\ map i0_non_witness_utxo (p0_inputs b) = [Some t] /\
  map i0_non_witness_utxo (p0_inputs c) = [None].
Proof.
  exists (cx0 [] [pr x00 [] prev_tx] []), (cx0 [] [pr x00 [] prev_tx; pr x01 [] utxo_bytes] []),
    (comb0 (cx0 [] [pr x00 [] prev_tx] []) (cx0 [] [pr x00 [] prev_tx; pr x01 [] utxo_bytes] [])),
    (Tx 2 0 [TxIn txid_b 0 [] (2 ^ 32 - 1) []] [TxOut 5000 p2wpkh_a; TxOut 5000 p2wpkh_a]).
  split; [apply cx0_wf; vm_compute; reflexivity|]. split; [apply cx0_wf; vm_compute; reflexivity|].
  split; [vm_compute; reflexivity|]. split; [|split]; vm_compute; reflexivity.
Qed.
Print Assumptions C37_v0_utxo_refuted.

Definition first_input0 (p : psbt0) : input0 := hd input0_default (p0_inputs p).
Example C37_v0_example : exists ia ib ic, nth_error (p0_inputs cx0_left) 0 = Some ia /\ nth_error (p0_inputs cx0_right) 0 = Some ib
  /\ nth_error (p0_inputs (comb0 cx0_left cx0_right)) 0 = Some ic /\ psbt0_combine cx0_left cx0_right = Ok (comb0 cx0_left cx0_right)
  /\ (length (input0_pairs ia), length (input0_pairs ib), length (input0_pairs ic)) = (3%nat, 3%nat, 4%nat).
Proof.
  exists (first_input0 cx0_left), (first_input0 cx0_right), (first_input0 (comb0 cx0_left cx0_right)). vm_compute. auto 6.
Qed.

(** ** C38: panics *)

Theorem C38_v0_panic_refuted : exists a b, @wf_psbt0 toy a /\ @wf_psbt0 toy b /\
  p0_unsigned_tx a = p0_unsigned_tx b /\ psbt0_combine a b = Panic.
Proof.
  exists (cx0 [xpub_pair x05 [1; 2]] [] []), (cx0 [xpub_pair x05 [3]] [] []).
  split; [apply cx0_wf; vm_compute; reflexivity|]. split; [apply cx0_wf; vm_compute; reflexivity|].
  split; vm_compute; reflexivity.
Qed.
Print Assumptions C38_v0_panic_refuted.

Theorem C38_v0_panic_iff : forall (X : Ext) a b, sorted_psbt0 a -> sorted_psbt0 b ->
  psbt0_combine a b = Panic <->
  p0_unsigned_tx a = p0_unsigned_tx b /\
  exists l1 x kb l2 ka, p0_xpub b = l1 ++ (x, kb) :: l2 /\ In (x, ka) (p0_xpub a) /\ short_second ka kb /\
    forall y k k', In (y, k') l1 -> In (y, k) (p0_xpub a) -> nested k k'.
Proof.
  intros X a b [Sa _ _ _ _] [Sb _ _ _ _].
  rewrite psbt0_combine_panic, merge_panic_iff by (apply (m_sorted_NoDup sk_xpub); assumption).
  split; intros (E1 & l1 & x & kb & l2 & ka & El & Hg & Hs & Hf); (split; [exact E1|]);
    exists l1, x, kb, l2, ka; (split; [exact El|]).
  - split; [now apply (m_get_in _ sk_xpub_inj) in Hg|]. split; auto. intros y k k' Hi Hk. apply (Hf y k k' Hi).
    now apply (m_in_get sk_xpub).
  - split; [now apply (m_in_get sk_xpub)|]. split; auto. intros y k k' Hi Hk. apply (Hf y k k' Hi). now apply (m_get_in _ sk_xpub_inj) in Hk.
Qed.
Print Assumptions C38_v0_panic_iff.

Theorem C38_v0_no_panic : forall (X : Ext) a b, sorted_psbt0 a -> sorted_psbt0 b ->
  (forall x ka kb, In (x, ka) (p0_xpub a) -> In (x, kb) (p0_xpub b) -> ~ short_second ka kb) ->
  psbt0_combine a b <> Panic.
Proof.
  intros X a b Sa Sb H E. apply C38_v0_panic_iff in E as (_ & l1 & x & kb & l2 & ka & El & Hi & Hs & _); auto.
  apply (H x ka kb); auto. rewrite El, in_app_iff. right. now left.
Qed.
Print Assumptions C38_v0_no_panic.

Example C38_v0_example : sorted_psbt0 cx0_left /\ sorted_psbt0 cx0_right
  /\ (forall x ka kb, In (x, ka) (p0_xpub cx0_left) -> In (x, kb) (p0_xpub cx0_right) -> ~ short_second ka kb)
  /\ length (p0_xpub cx0_left) = 1%nat.
Proof.
  split; [exact (wf_sorted0 _ cx0_left_wf)|]. split; [exact (wf_sorted0 _ cx0_right_wf)|].
  split; [|vm_compute; reflexivity].
  assert (H : p0_xpub cx0_left = p0_xpub cx0_right /\ length (p0_xpub cx0_left) = 1%nat) by (vm_compute; auto).
  destruct H as [-> H]. intros x ka kb Ha Hb. destruct (p0_xpub cx0_right) as [|e [|]]; try discriminate.
  destruct Ha as [->|[]], Hb as [E|[]]. inversion E. subst. intros [Q _]. lia.
Qed.

(** ** C39: only PSBTs for the same transaction *)

(** Here the claim holds: combining succeeds only for the same unsigned transaction, which
    is the one of the result; and another transaction is reported. *)
Theorem C39_v0_same_transaction : forall (X : Ext) a b c, psbt0_combine a b = Ok c ->
  p0_unsigned_tx a = p0_unsigned_tx b /\ p0_unsigned_tx c = p0_unsigned_tx a.
Proof. intros X a b c H. apply psbt0_combine_ok in H as (E & xs & _ & ->). auto. Qed.
Print Assumptions C39_v0_same_transaction.

Theorem C39_v0_other_transaction_iff : forall (X : Ext) a b,
  p0_unsigned_tx a <> p0_unsigned_tx b <->
  psbt0_combine a b = Err (E0UnexpectedUnsignedTx (p0_unsigned_tx a) (p0_unsigned_tx b)).
Proof.
  intros X a b. split.
  - intros N. unfold psbt0_combine. destruct (tx_dec _ _); [tauto|reflexivity].
  - intros H. apply psbt0_combine_err in H as [(N & _)|(_ & e & _ & H)]; auto. destruct e; discriminate.
Qed.
Print Assumptions C39_v0_other_transaction_iff.

(** Nothing else prevents combining than xpubs that clash. *)
Theorem C39_v0_combined : forall (X : Ext) a b, sorted_psbt0 a -> sorted_psbt0 b ->
  p0_unsigned_tx a = p0_unsigned_tx b ->
  (forall x ka kb, In (x, ka) (p0_xpub a) -> In (x, kb) (p0_xpub b) -> nested ka kb) ->
  exists c, psbt0_combine a b = Ok c.
Proof.
  intros X a b [Sa _ _ _ _] [Sb _ _ _ _] Et Hx. destruct (merge_nested _ _ Sa Sb Hx) as [m Hm].
  eexists. apply psbt0_combine_ok. split; auto. exists m. split; auto.
Qed.
Print Assumptions C39_v0_combined.

Example C39_v0_example : psbt0_combine cx0_left cx0_right = Ok (comb0 cx0_left cx0_right)
  /\ p0_unsigned_tx (comb0 cx0_left cx0_right) = cx0_tx
  /\ psbt0_combine cx0_left sample0 = Err (E0UnexpectedUnsignedTx cx0_tx sample0_tx).
Proof. vm_compute. auto. Qed.

(** ** C40: key sources of xpubs *)

Theorem C40_v0_merged_partial : forall (X : Ext) a b c, sorted_psbt0 a -> sorted_psbt0 b -> psbt0_combine a b = Ok c ->
  let xa := p0_xpub a in let xb := p0_xpub b in let xc := p0_xpub c in
  (forall x k, In (x, k) xa -> ~ In x (map fst xb) -> In (x, k) xc) /\
  (forall x k, In (x, k) xb -> ~ In x (map fst xa) -> In (x, k) xc) /\
  (forall x, In x (map fst xc) -> In x (map fst xa) \/ In x (map fst xb)) /\
  NoDup (map fst xc) /\
  (forall x ka kb, In (x, ka) xa -> In (x, kb) xb ->
     exists k, In (x, k) xc /\ (doc_merge ka kb (Some k) \/ ks_path ka = ks_path kb /\ ks_fp ka <> ks_fp kb /\ k = kb)).
Proof.
  intros X a b c [Sa _ _ _ _] [Sb _ _ _ _] H xa xb xc. fold xa in Sa. fold xb in Sb.
  apply psbt0_combine_ok in H as (_ & xs & Hm & E). assert (xs = xc) by (unfold xc; now rewrite E). subst xs. fold xa xb in Hm. clear E.
  pose proof (m_sorted_NoDup sk_xpub xb Sb) as Nb. destruct (merge_get _ _ _ Nb Hm) as (G1 & G2 & G3).
  pose proof (merge_sorted _ _ _ Hm Sa) as Sc.
  split; [|split; [|split; [|split]]].
  - intros x k Hi Hn. apply (m_get_in _ sk_xpub_inj). rewrite (G1 x Hn). now apply (m_in_get sk_xpub).
  - intros x k Hi Hn. apply (m_get_in _ sk_xpub_inj). apply G2; auto. apply (m_notin_get_none _ sk_xpub_inj). exact Hn.
  - intros x Hx. now apply (merge_keys _ _ _ x Hm).
  - now apply (m_sorted_NoDup sk_xpub).
  - intros x ka kb Ha Hb. destruct (G3 x ka kb Hb) as (k & Hk & Q); [now apply (m_in_get sk_xpub)|].
    exists k. split; [now apply (m_get_in _ sk_xpub_inj)|exact Q].
Qed.
Print Assumptions C40_v0_merged_partial.

Theorem C40_v0_clash_rejected : forall (X : Ext) a b x ka kb, sorted_psbt0 a -> sorted_psbt0 b ->
  In (x, ka) (p0_xpub a) -> In (x, kb) (p0_xpub b) ->
  doc_merge ka kb None -> ks_path ka <> ks_path kb -> forall c, psbt0_combine a b <> Ok c.
Proof.
  intros X a b x ka kb Sa Sb Ha Hb Hd Hp c H.
  destruct (C40_v0_merged_partial X a b c Sa Sb H) as (_ & _ & _ & _ & G). destruct (G x ka kb Ha Hb) as (k & _ & [Q|(Q & _)]); [|tauto].
  now pose proof (C40_documentation_functional _ _ _ _ Hd Q).
Qed.
Print Assumptions C40_v0_clash_rejected.

(** The error names an xpub for which the documentation asks for an error. *)
Theorem C40_v0_error_justified : forall (X : Ext) a b x, sorted_psbt0 a -> sorted_psbt0 b ->
  psbt0_combine a b = Err (E0CombineInconsistentKeySources x) ->
  exists ka kb, In (x, ka) (p0_xpub a) /\ In (x, kb) (p0_xpub b) /\ doc_merge ka kb None.
Proof.
  intros X a b x _ [Sb _ _ _ _] H. apply psbt0_combine_err in H as [(_ & H)|(_ & e & Hm & H)]; [discriminate|].
  destruct (merge_fail _ _ _ (m_sorted_NoDup sk_xpub _ Sb) Hm eq_refl) as (l1 & y & kb & l2 & ka & El & Hg & _ & [(Q & _)|(Q & Q1 & Q2)]); [discriminate|].
  injection Q as ->. cbn in H. assert (x = y) by congruence. subst y. exists ka, kb. split; [now apply (m_get_in _ sk_xpub_inj) in Hg|].
  split; [rewrite El, in_app_iff; right; now left|].
  destruct (Nat.eq_dec (length (ks_path ka)) (length (ks_path kb))).
  - apply DMSameLength; auto. intros E. apply Q2. exists []. now rewrite E.
  - apply DMNotSuffixSecond; auto. lia.
Qed.
Print Assumptions C40_v0_error_justified.

Theorem C40_v0_fingerprint_refuted : exists a b c x ka kb, @wf_psbt0 toy a /\ @wf_psbt0 toy b /\
  p0_xpub a = [(x, ka)] /\ p0_xpub b = [(x, kb)] /\ doc_merge ka kb None /\
  psbt0_combine a b = Ok c /\ p0_xpub c = [(x, kb)].
Proof.
  exists (cx0 [xpub_pair x05 [1; 2]] [] []), (cx0 [xpub_pair x06 [1; 2]] [] []),
    (comb0 (cx0 [xpub_pair x05 [1; 2]] [] []) (cx0 [xpub_pair x06 [1; 2]] [] [])),
    (match p0_xpub (cx0 [xpub_pair x05 [1; 2]] [] []) with (x, _) :: _ => x | [] => Xpub true x00 [] [] [] [] end),
    (KeySource (repeat x05 4) [1; 2]), (KeySource (repeat x06 4) [1; 2]).
  split; [apply cx0_wf; vm_compute; reflexivity|]. split; [apply cx0_wf; vm_compute; reflexivity|].
  split; [vm_compute; reflexivity|]. split; [vm_compute; reflexivity|]. split; [|split; vm_compute; reflexivity].
  apply DMFingerprint; [reflexivity|cbn; discriminate].
Qed.
Print Assumptions C40_v0_fingerprint_refuted.

Example C40_v0_example :
  let a := cx0 [xpub_pair x05 [1; 2]] [] [] in let b := cx0 [xpub_pair x06 [2]] [] [] in let d := cx0 [xpub_pair x06 [3; 4]] [] [] in
  map snd (p0_xpub (comb0 a b)) = [KeySource (repeat x05 4) [1; 2]]
  /\ map snd (p0_xpub (comb0 b a)) = [KeySource (repeat x05 4) [1; 2]]
  /\ exists x, psbt0_combine a d = Err (E0CombineInconsistentKeySources x).
Proof.
  split; [vm_compute; reflexivity|]. split; [vm_compute; reflexivity|].
  exists (match p0_xpub (cx0 [xpub_pair x05 [1; 2]] [] []) with (x, _) :: _ => x | [] => Xpub true x00 [] [] [] [] end).
  vm_compute. reflexivity.
Qed.

(** ** C57: the result of combining is a PSBT that can be written and read *)

Lemma too_big0 (X : Ext) (L : ExtLaws X) p q : wf_g0 p -> 4000000 < global0_size p ->
  psbt0_deserialize (psbt0_serialize p) <> Ok q.
Proof.
  intros W Hs H. rewrite serialize0_wire in H. apply deserialize0_iff in H as (lg & lis & los & r & E & A).
  apply app_inv_head in E. destruct A as ((Wl & Hm & _) & _).
  assert (Q : ser_pairs (global0_pairs p) = ser_pairs lg).
  { refine (f_equal _ (proj1 (ser_pairs_unique (global0_pairs p) lg _ _ Wl _ E))). apply ser_pairs_spec. now apply global0_pairs_wf. }
  rewrite <- Q, (global0_size_eq p W) in Hm. unfold MAX_VEC_SIZE in Hm. lia.
Qed.

(** The decoder limits the size of the global map; this is all that can go wrong. *)
Theorem C57_v0_roundtrips_iff : forall (X : Ext) (L : ExtLaws X) a b c,
  wf_psbt0 a -> wf_psbt0 b -> psbt0_combine a b = Ok c ->
  ((exists c', psbt0_deserialize (psbt0_serialize c) = Ok c' /\ psbt0_eq c c') <-> global0_size c <= 4000000) /\
  (global0_size c <= 4000000 -> wf_psbt0 c).
Proof.
  intros X L a b c Ha Hb H. apply psbt0_combine_ok in H as (_ & xs & Hx & ->).
  pose proof (fun Hs => combined0_wf a b xs Hx Ha Hb Hs) as W. split; [|exact W]. split.
  - intros (c' & D & _). destruct (N.le_gt_cases (global0_size (combined0 a b xs)) 4000000) as [Q|Q]; auto.
    exfalso. apply (too_big0 X L _ c' (combined0_g0 a b xs Hx (wf_psbt0_g0 _ Ha) (wf_psbt0_g0 _ Hb)) Q D).
  - intros Hs. apply psbt0_roundtrip. auto.
Qed.
Print Assumptions C57_v0_roundtrips_iff.

(** Two PSBTs with an unknown pair of 3 MB each can be written and read, their combination
    can not. *)
Definition big0 (t : byte) (v : bytes) : psbt0 :=
  let p := cx0 [] [] [] in Psbt0 (p0_unsigned_tx p) 0 [] [] [(Key t [], v)] (p0_inputs p) (p0_outputs p).
Lemma varint_size_le n : varint_size n <= 9.
Proof.
  unfold varint_size, enc_varint. repeat match goal with |- context [if ?b then _ else _] => destruct b eqn:? end;
    unfold blen; cbn [length]; rewrite ?le_enc_length; lia.
Qed.
Lemma big0_wf t v : unknown_key0 global0_type global_v2_type (Key t []) -> blen v <= 3000000 -> @wf_psbt0 toy (big0 t v).
Proof.
  intros Hk Hv. assert (W : @wf_psbt0 toy (cx0 [] [] [])) by (apply cx0_wf; vm_compute; reflexivity).
  assert (S : tx_base_size (p0_unsigned_tx (cx0 [] [] [])) <= 1000) by (vm_compute; discriminate).
  unfold big0. revert W S. generalize (cx0 [] [] []). intros p W S.
  destruct W. constructor; cbn [p0_unsigned_tx p0_version p0_xpub p0_proprietary p0_unknown p0_inputs p0_outputs]; auto;
    try (split; [constructor|solve [constructor]]).
  - split; [repeat constructor|]. constructor; auto. split; auto. unfold wf_value, MAX_VALUE, MAX_VEC_SIZE. cbn [fst snd]. lia.
  - unfold global0_size. cbn [p0_unsigned_tx p0_version p0_xpub p0_proprietary p0_unknown].
    cbn [sum_size fold_right fst snd k_data]. unfold pair_size. change (blen (@nil byte)) with 0.
    pose proof (varint_size_le (tx_base_size (p0_unsigned_tx p))). pose proof (varint_size_le (blen v)).
    pose proof (varint_size_le (0 + 1)). lia.
Qed.
Lemma three_mb : exists v : bytes, blen v = 3000000.
Proof. exists (repeat x00 (N.to_nat 3000000)). unfold blen. rewrite repeat_length, N2Nat.id. reflexivity. Qed.

Ltac unknown_key_ok := split; [vm_compute; first [discriminate|reflexivity|auto]|repeat split; vm_compute; reflexivity].
Theorem C57_v0_size_refuted : exists a b c, @wf_psbt0 toy a /\ @wf_psbt0 toy b /\
  (exists a', @psbt0_deserialize toy (psbt0_serialize a) = Ok a' /\ psbt0_eq a a') /\
  (exists b', @psbt0_deserialize toy (psbt0_serialize b) = Ok b' /\ psbt0_eq b b') /\
  psbt0_combine a b = Ok c /\ forall q, @psbt0_deserialize toy (psbt0_serialize c) <> Ok q.
Proof.
  destruct three_mb as [v Hv].
  assert (Wa : @wf_psbt0 toy (big0 xf0 v)) by (apply big0_wf; [unknown_key_ok|lia]).
  assert (Wb : @wf_psbt0 toy (big0 xf1 v)) by (apply big0_wf; [unknown_key_ok|lia]).
  exists (big0 xf0 v), (big0 xf1 v), (combined0 (big0 xf0 v) (big0 xf1 v) []).
  split; [exact Wa|]. split; [exact Wb|].
  split; [exact (@psbt0_roundtrip toy toy_laws _ Wa)|]. split; [exact (@psbt0_roundtrip toy toy_laws _ Wb)|].
  assert (M : global_merge_xpubs (p0_xpub (big0 xf1 v)) (p0_xpub (big0 xf0 v)) = Ok []) by reflexivity.
  split; [apply psbt0_combine_ok; split; [reflexivity|]; exists []; split; [exact M|reflexivity]|].
  intros q. apply (too_big0 toy toy_laws).
  - exact (combined0_g0 _ _ _ M (wf_psbt0_g0 _ Wa) (wf_psbt0_g0 _ Wb)).
  - assert (U : p0_unknown (combined0 (big0 xf0 v) (big0 xf1 v) []) = [(Key xf0 [], v); (Key xf1 [], v)]) by reflexivity.
    unfold global0_size. rewrite U. cbn [sum_size fold_right fst snd k_data]. unfold pair_size at 4 5. lia.
Qed.
Print Assumptions C57_v0_size_refuted.

Example C57_v0_example : wf_psbt0 cx0_left /\ wf_psbt0 cx0_right /\ psbt0_combine cx0_left cx0_right = Ok (comb0 cx0_left cx0_right)
  /\ global0_size (comb0 cx0_left cx0_right) <= 4000000.
Proof.
  split; [exact cx0_left_wf|]. split; [exact cx0_right_wf|]. split; [vm_compute; reflexivity|]. vm_compute. discriminate.
Qed.

(** ** C58: which value wins *)

Theorem C58_v0_first_wins_single : forall (X : Ext) (L : ExtLaws X) a b c, wf_psbt0 a -> wf_psbt0 b -> psbt0_combine a b = Ok c ->
  (forall p, In p (global0_pairs a) -> In (k_type (p_key p)) single_global0 -> In p (global0_pairs c)) /\
  (forall n ia ic p, nth_error (p0_inputs a) n = Some ia -> nth_error (p0_inputs c) n = Some ic ->
     In p (input0_pairs ia) -> In (k_type (p_key p)) single_input0 ->
     In p (input0_pairs ic) \/ exists ib, nth_error (p0_inputs b) n = Some ib /\ lost_first0 ia ib (p_key p)) /\
  (forall n oa oc p, nth_error (p0_outputs a) n = Some oa -> nth_error (p0_outputs c) n = Some oc ->
     In p (output0_pairs oa) -> In (k_type (p_key p)) single_output0 -> In p (output0_pairs oc)).
Proof.
  intros X L a b c Wa Wb H. apply psbt0_combine_ok in H as (_ & xs & Hx & ->).
  pose proof (fun n x => forall_at _ _ n x (wp0_inputs _ Wa)) as Wi. pose proof (fun n x => forall_at _ _ n x (wp0_outputs _ Wa)) as Wo.
  split; [|split].
  - intros p Hp Ht. exact (global0_first a b xs p (wf_psbt0_g0 _ Wa) (wf_psbt0_g0 _ Wb) Hx Hp Ht).
  - intros n ia ic p Ha Hc Hp Ht. destruct (zip_combine_nth _ _ _ _ _ Hc) as (i & Ha' & Hb & Hn). rewrite Ha in Ha'. apply Some_inj in Ha'. subst i.
    destruct (nth_error (p0_inputs b) n) as [ib|].
    + rewrite (Hb ib eq_refl). destruct (input0_first _ ib p (Wi _ _ Ha) Hp Ht); eauto.
    + rewrite (Hn eq_refl). auto.
  - intros n oa oc p Ha Hc Hp Ht. destruct (zip_combine_nth _ _ _ _ _ Hc) as (i & Ha' & Hb & Hn). rewrite Ha in Ha'. apply Some_inj in Ha'. subst i.
    destruct (nth_error (p0_outputs b) n) as [ob|].
    + rewrite (Hb ob eq_refl). exact (output0_first _ ob p (Wo _ _ Ha) Hp Ht).
    + now rewrite (Hn eq_refl).
Qed.
Print Assumptions C58_v0_first_wins_single.

(** (0x01 is the type of the xpubs of the global map, see C40.) *)
Theorem C58_v0_second_wins_maps : forall (X : Ext) (L : ExtLaws X) a b c, wf_psbt0 a -> wf_psbt0 b -> psbt0_combine a b = Ok c ->
  (forall p, In p (global0_pairs b) -> ~ In (k_type (p_key p)) (x01 :: single_global0) -> In p (global0_pairs c)) /\
  (forall n ib ic p, nth_error (p0_inputs b) n = Some ib -> nth_error (p0_inputs c) n = Some ic ->
     In p (input0_pairs ib) -> ~ In (k_type (p_key p)) single_input0 -> In p (input0_pairs ic)) /\
  (forall n ob oc p, nth_error (p0_outputs b) n = Some ob -> nth_error (p0_outputs c) n = Some oc ->
     In p (output0_pairs ob) -> ~ In (k_type (p_key p)) single_output0 -> In p (output0_pairs oc)).
Proof.
  intros X L a b c Wa Wb H. apply psbt0_combine_ok in H as (_ & xs & Hx & ->).
  pose proof (fun n x => forall_at _ _ n x (wp0_inputs _ Wb)) as Wi. pose proof (fun n x => forall_at _ _ n x (wp0_outputs _ Wb)) as Wo.
  split; [|split].
  - intros p Hp Ht. exact (global0_second a b xs p (wf_psbt0_g0 _ Wb) Hx Hp Ht).
  - intros n ib ic p Hb Hc. destruct (zip_combine_nth _ _ _ _ _ Hc) as (i & _ & Q & _). rewrite (Q ib Hb). exact (input0_second _ _ p (Wi _ _ Hb)).
  - intros n ob oc p Hb Hc. destruct (zip_combine_nth _ _ _ _ _ Hc) as (i & _ & Q & _). rewrite (Q ob Hb). exact (output0_second _ _ p (Wo _ _ Hb)).
Qed.
Print Assumptions C58_v0_second_wins_maps.

Example C58_v0_example :
  let a := cx0 [pr xf0 [] [x01]] [pr x04 [] [x51]] [] in
  let b := cx0 [pr xf0 [] [x02]] [pr x04 [] [x52]] [] in
  wf_psbt0 a /\ wf_psbt0 b /\ psbt0_combine a b = Ok (comb0 a b) /\ map snd (p0_unknown (comb0 a b)) = [[x02]]
  /\ map i0_redeem_script (p0_inputs (comb0 a b)) = [Some [x51]].
Proof.
  split; [apply cx0_wf; vm_compute; reflexivity|]. split; [apply cx0_wf; vm_compute; reflexivity|]. vm_compute. auto 6.
Qed.

(** Every value codec reads back what it writes, writes what fits, returns
    well-formed values only, and never panics. *)
From Verif Require Import Base OMap Consensus ConsensusFacts Ext Raw RawFacts TapTree TapTreeFacts Serialize.
Local Open Scope N_scope.

(** Largest value (resp. key) length the pair format can carry. *)
Definition VLIM : N := MAX_VALUE.
Definition KLIM : N := MAX_VEC_SIZE.

Record codec_ok {A} (lim : N) (wf : A -> Prop) (ser : A -> bytes) (de : bytes -> res serr A) : Prop := {
  co_rt : forall a, wf a -> de (ser a) = Ok a;
  co_len : forall a, wf a -> blen (ser a) <= lim;
  co_wf : forall b a, blen b <= lim -> de b = Ok a -> wf a;
  co_np : forall b, de b <> Panic
}.

(** Codecs that accept nothing but what they write. *)
Definition canonical {A} (ser : A -> bytes) (de : bytes -> res serr A) : Prop :=
  forall b a, de b = Ok a -> b = ser a.

Lemma VLIM_val : VLIM = 3999995.
Proof. reflexivity. Qed.
Lemma KLIM_val : KLIM = 4000000.
Proof. reflexivity. Qed.

Ltac lims := rewrite ?VLIM_val, ?KLIM_val in *; unfold U64, U32, MAX_VEC_SIZE, MAX_VALUE in *.

Lemma firstn_pre {A} n (a b : list A) : length a = n -> firstn n (a ++ b) = a.
Proof. intros <-. rewrite firstn_app, Nat.sub_diag, firstn_all. apply app_nil_r. Qed.
Lemma skipn_pre {A} n (a b : list A) : length a = n -> skipn n (a ++ b) = b.
Proof. intros <-. rewrite skipn_app, Nat.sub_diag, skipn_all. reflexivity. Qed.

(** Like [inv] for equations, but without simplifying. *)
Lemma Ok_inj {E A} (a b : A) : @Ok E A a = Ok b -> a = b.
Proof. congruence. Qed.
Lemma Some_inj {A} (a b : A) : Some a = Some b -> a = b.
Proof. congruence. Qed.
Ltac inj H := first [apply Ok_inj in H | apply Some_inj in H]; subst.

Lemma skipn_twice {A} n m (l : list A) : skipn n (skipn m l) = skipn (m + n) l.
Proof.
  revert l. induction m as [|m IH]; intros [|x l]; try reflexivity.
  - now destruct n.
  - apply IH.
Qed.

Section Facts.
Context `{X : Ext} {L : ExtLaws X}.

(** ** Consensus values *)

Lemma de_consensus_ok {A} (wf : A -> Prop) enc dec lim :
  rt wf enc dec -> canon wf enc dec -> nopanic dec ->
  codec_ok lim (fun a => wf a /\ blen (enc a) <= lim) enc (de_consensus dec).
Proof.
  intros Hrt Hc Hp. constructor.
  - intros a [Ha _]. unfold de_consensus. now rewrite (c_deserialize_rt wf enc).
  - now intros a [].
  - intros b a Hb H. unfold de_consensus in H. apply map_err_ok in H.
    apply (c_deserialize_canon wf enc) in H as [-> Hwf]; auto.
  - intros b. unfold de_consensus. pose proof (c_deserialize_nopanic dec b Hp).
    destruct (c_deserialize dec b); cbn; congruence.
Qed.

Lemma de_consensus_rt {A} (wf : A -> Prop) enc (dec : reader cerr A) :
  rt wf enc dec -> forall a, wf a -> de_consensus dec (enc a) = Ok a.
Proof. intros Hrt a Ha. unfold de_consensus. now rewrite (c_deserialize_rt wf enc). Qed.

Lemma de_consensus_canonical {A} (wf : A -> Prop) enc (dec : reader cerr A) :
  canon wf enc dec -> canonical enc (de_consensus dec).
Proof.
  intros Hc b a H. unfold de_consensus in H. apply map_err_ok in H.
  now apply (c_deserialize_canon wf enc) in H as [-> _].
Qed.

Lemma codec_weaken {A} lim (wf wf' : A -> Prop) ser de :
  (forall a, wf a <-> wf' a) -> codec_ok lim wf ser de -> codec_ok lim wf' ser de.
Proof.
  intros E [H1 H2 H3 H4]. constructor; auto.
  - intros a Ha. apply H1. now apply E.
  - intros a Ha. apply H2. now apply E.
  - intros b a Hb H. apply E. eauto.
Qed.

Lemma enc_u32_len lim n : 4 <= lim -> blen (enc_u32 n) <= lim.
Proof. unfold blen. rewrite enc_u32_length. lia. Qed.
Lemma enc_u64_len lim n : 8 <= lim -> blen (enc_u64 n) <= lim.
Proof. unfold blen. rewrite enc_u64_length. lia. Qed.

Lemma u32_codec lim : 4 <= lim -> codec_ok lim wf_u32 ser_u32 de_u32.
Proof.
  intros Hl. refine (codec_weaken _ _ _ _ _ _ (de_consensus_ok _ _ _ _ dec_u32_rt dec_u32_canon dec_u32_nopanic)).
  intros a. split; [tauto|]. intros H. split; [exact H|]. now apply enc_u32_len.
Qed.
Lemma locktime_codec : codec_ok VLIM wf_u32 ser_locktime de_locktime.
Proof. apply (u32_codec VLIM). lims. lia. Qed.
Lemma txversion_codec : codec_ok VLIM wf_u32 ser_txversion de_txversion.
Proof. apply (u32_codec VLIM). lims. lia. Qed.
Lemma amount_codec : codec_ok VLIM wf_u64 ser_amount de_amount.
Proof.
  refine (codec_weaken _ _ _ _ _ _ (de_consensus_ok _ _ _ _ dec_u64_rt dec_u64_canon dec_u64_nopanic)).
  intros a. split; [tauto|]. intros H. split; [exact H|]. apply enc_u64_len. lims. lia.
Qed.
Lemma varint_codec : codec_ok VLIM wf_u64 ser_varint de_varint.
Proof.
  refine (codec_weaken _ _ _ _ _ _ (de_consensus_ok _ _ _ _ dec_varint_rt dec_varint_canon dec_varint_nopanic)).
  intros a. split; [tauto|]. intros H. split; [exact H|]. pose proof (varint_size_bounds a).
  unfold varint_size in *. lims. lia.
Qed.
Lemma tx_codec : codec_ok VLIM wf_tx_v ser_tx de_tx.
Proof.
  refine (codec_weaken _ _ _ _ _ _ (de_consensus_ok _ _ _ _ dec_tx_rt dec_tx_canon dec_tx_nopanic)).
  intros a. unfold wf_tx_v. lims. intuition lia.
Qed.
Lemma txout_codec : codec_ok VLIM wf_txout_v ser_txout de_txout.
Proof.
  refine (codec_weaken _ _ _ _ _ _ (de_consensus_ok _ _ _ _ dec_txout_rt dec_txout_canon dec_txout_nopanic)).
  intros a. unfold wf_txout_v. lims. intuition lia.
Qed.

Lemma enc_witness_len w : wf_witness w -> blen (enc_witness w) <= 4000009.
Proof.
  unfold wf_witness, enc_witness, enc_vec. intros H. rewrite blen_app, wit_size_len.
  pose proof (varint_size_bounds (blen w)). unfold varint_size in *. unfold MAX_VEC_SIZE in H. lia.
Qed.
Lemma witness_codec : codec_ok VLIM wf_witness_v ser_witness de_witness.
Proof.
  refine (codec_weaken _ _ _ _ _ _ (de_consensus_ok _ _ _ _ dec_witness_rt dec_witness_canon dec_witness_nopanic)).
  intros a. unfold wf_witness_v. lims. tauto.
Qed.

(** ** Plain bytes *)

Lemma hash_codec lim n : N.of_nat n <= lim -> codec_ok lim (wf_bytes_n n) ser_hash (de_hash (N.of_nat n)).
Proof.
  intros Hl. constructor; unfold wf_bytes_n, ser_hash, de_hash.
  - intros a H. unfold blen. rewrite H, N.eqb_refl. reflexivity.
  - intros a H. unfold blen. lia.
  - intros b a _ H. destruct (blen b =? N.of_nat n) eqn:E; [|discriminate]. inv H. unfold blen in E. lia.
  - intros b. destruct (_ =? _); discriminate.
Qed.

Lemma script_codec : codec_ok VLIM wf_value ser_script de_script.
Proof.
  constructor; unfold wf_value, ser_script, de_script; intros; try discriminate; auto.
  inj H0. exact H.
Qed.
Lemma vec_codec : codec_ok VLIM wf_value ser_vec de_vec.
Proof. exact script_codec. Qed.

(** ** Keys *)

Lemma secp_codec lim : 33 <= lim -> codec_ok lim wf_secp ser_secp de_secp.
Proof.
  intros Hl. constructor; unfold wf_secp, ser_secp, de_secp.
  - intros a H. now rewrite H.
  - intros a H. apply secp_parse_len in H. unfold blen. lia.
  - intros b a _ H. apply ok_or_ok in H. now apply secp_parse_idem in H.
  - intros b. destruct (secp_parse b); discriminate.
Qed.

Lemma pubkey_codec lim : 65 <= lim -> codec_ok lim wf_pubkey ser_pubkey de_pubkey.
Proof.
  intros Hl. constructor; unfold wf_pubkey, wf_secp.
  - intros [[|] k] H; cbn in H; unfold ser_pubkey, de_pubkey; cbn [pub_compressed pub_inner].
    + pose proof (secp_parse_len _ _ H) as Hk. unfold blen. rewrite Hk. cbn. now rewrite H.
    + unfold blen. rewrite secp_uncompress_len by assumption. cbn [N.of_nat Pos.of_succ_nat].
      rewrite secp_uncompress_head by assumption. cbn.
      now rewrite secp_uncompress_parse.
  - intros [[|] k] H; cbn in H; unfold ser_pubkey, blen; cbn.
    + rewrite (secp_parse_len _ _ H). lia.
    + rewrite secp_uncompress_len by assumption. lia.
  - intros b a _ H. unfold de_pubkey in H.
    destruct (blen b =? 33); [|destruct (_ && _); [|discriminate]];
      (destruct (secp_parse b) eqn:E; [|discriminate]); inv H; cbn; now apply secp_parse_idem in E.
  - intros b. unfold de_pubkey.
    destruct (blen b =? 33); [|destruct (_ && _); [|discriminate]]; destruct (secp_parse b); discriminate.
Qed.

Lemma pubkey_canonical : canonical ser_pubkey de_pubkey.
Proof.
  intros b a H. unfold de_pubkey in H.
  destruct (blen b =? 33) eqn:E1.
  - destruct (secp_parse b) eqn:E; [|discriminate]. inv H. unfold ser_pubkey. cbn.
    symmetry. apply (secp_parse_33 b); auto. unfold blen in E1. lia.
  - destruct (_ && _) eqn:E2; [|discriminate]. destruct (secp_parse b) eqn:E; [|discriminate].
    inv H. unfold ser_pubkey. cbn. apply andb_true_iff in E2 as [E2 E3]. apply beq_eq in E3.
    apply secp_uncompress_unique; auto. unfold blen in E2. lia.
Qed.

Lemma sk_pubkey_inj a b : sk_pubkey a = sk_pubkey b -> a = b.
Proof.
  destruct a as [ca ka], b as [cb kb]. unfold sk_pubkey. cbn. intros [= H1 H2].
  apply bkey_inj in H2. destruct ca, cb; congruence.
Qed.

Lemma xonly_codec lim : 32 <= lim -> codec_ok lim wf_xonly ser_xonly de_xonly.
Proof.
  intros Hl. constructor; unfold wf_xonly, ser_xonly, de_xonly.
  - intros a [H1 H2]. unfold blen. rewrite H1, H2. reflexivity.
  - intros a [H1 H2]. unfold blen. lia.
  - intros b a _ H. destruct (_ && _) eqn:E; [|discriminate]. inv H.
    apply andb_true_iff in E as [E1 E2]. split; auto. unfold blen in E1. lia.
  - intros b. destruct (_ && _); discriminate.
Qed.

(** ** Signatures *)

Lemma ecdsa_std_lt n : ecdsa_sighash_std n = true -> n < 256.
Proof. unfold ecdsa_sighash_std. rewrite !orb_true_iff, !N.eqb_eq. lia. Qed.
Lemma tap_std_lt n : tap_sighash_std n = true -> n < 256.
Proof. unfold tap_sighash_std. rewrite orb_true_iff, N.eqb_eq. intros [->|H]; [lia|]. now apply ecdsa_std_lt. Qed.

Lemma esig_codec : codec_ok VLIM wf_esig ser_esig de_esig.
Proof.
  constructor.
  - intros [d t] [H1 H2]. cbn in H1, H2. unfold ser_esig, de_esig. cbn [es_der es_type].
    destruct (d ++ [n2b t]) eqn:E; [now apply app_eq_nil in E as []|]. rewrite <- E. clear E.
    rewrite last_last, removelast_last. pose proof (ecdsa_std_lt _ H2).
    rewrite b2n_n2b by assumption. rewrite H2. cbn [negb]. now rewrite H1.
  - intros [d t] [H1 H2]. cbn in H1. unfold ser_esig. cbn.
    rewrite blen_app. unfold blen. pose proof (der_parse_len _ _ H1). cbn [length]. lims. lia.
  - intros b a _ H. unfold de_esig in H. destruct b as [|x b]; [discriminate|].
    cbv zeta in H. destruct (ecdsa_sighash_std _) eqn:E; cbn [negb] in H; [|discriminate].
    destruct (der_parse _) eqn:Ed; [|discriminate]. inv H. split; cbn; auto.
    now apply der_parse_idem in Ed.
  - intros b. unfold de_esig. destruct b as [|x b]; [discriminate|]. cbv zeta.
    destruct (negb _); [discriminate|]. destruct (der_parse _); discriminate.
Qed.

Lemma tsig_codec : codec_ok VLIM wf_tsig ser_tsig de_tsig.
Proof.
  constructor.
  - intros [s t] [H1 H2]. cbn in H1, H2. unfold ser_tsig, de_tsig. cbn [ts_sig ts_type].
    destruct (t =? 0) eqn:E.
    + unfold blen. rewrite H1. cbn. f_equal. f_equal. lia.
    + rewrite blen_app. unfold blen. rewrite H1. cbn [length].
      change (N.of_nat 64 + N.of_nat 1 =? 64) with false.
      change (N.of_nat 64 + N.of_nat 1 =? 65) with true. cbv iota.
      rewrite last_last, removelast_last. pose proof (tap_std_lt _ H2).
      rewrite b2n_n2b by assumption. rewrite H2. reflexivity.
  - intros [s t] [H1 H2]. cbn in H1. unfold ser_tsig. cbn.
    destruct (t =? 0); rewrite ?blen_app; unfold blen; rewrite H1; cbn [length]; lims; lia.
  - intros b a _ H. unfold de_tsig in H. destruct (blen b =? 64) eqn:E1.
    + inv H. split; cbn; auto. unfold blen in E1. lia.
    + destruct (blen b =? 65) eqn:E2; [|discriminate]. cbv zeta in H.
      destruct (tap_sighash_std _) eqn:E3; [|discriminate]. inv H. split; cbn; auto.
      destruct b as [|x b]; [discriminate|].
      assert (Hne : x :: b <> []) by discriminate.
      pose proof (f_equal (@length _) (app_removelast_last x00 Hne)) as Q.
      rewrite app_length in Q. unfold blen in E2. cbn [length] in *. lia.
  - intros b. unfold de_tsig. repeat destruct (_ =? _); try discriminate. cbv zeta.
    destruct (tap_sighash_std _); discriminate.
Qed.

(** ** Key sources *)

Lemma de_path_rt p : forall fuel, Forall wf_u32 p -> (length p <= fuel)%nat ->
  de_path fuel (enc_all enc_u32 p) = Ok p.
Proof.
  induction p as [|n p IH]; intros fuel H Hf; [destruct fuel; reflexivity|].
  inv H. destruct fuel as [|f]; [cbn in Hf; lia|]. rewrite enc_all_cons.
  cbn [de_path]. destruct (enc_u32 n ++ enc_all enc_u32 p) eqn:E.
  - apply app_eq_nil in E as [E _]. pose proof (enc_u32_length n). rewrite E in H. discriminate.
  - rewrite <- E. rewrite dec_u32_rt by assumption. cbn [map_err bind].
    rewrite IH; auto. cbn in Hf. lia.
Qed.

Lemma de_path_inv fuel : forall bs p, de_path fuel bs = Ok p -> bs = enc_all enc_u32 p /\ Forall wf_u32 p.
Proof.
  induction fuel as [|f IH]; intros bs p H; destruct bs as [|b bs]; cbn [de_path] in H.
  - inv H. auto.
  - discriminate.
  - inv H. auto.
  - binds H. inv H. apply map_err_ok in Hx. apply dec_u32_canon in Hx as [Hb Hn].
    apply IH in Hx0 as [-> Hp]. rewrite Hb, enc_all_cons. auto.
Qed.

Lemma de_path_np fuel : forall bs, de_path fuel bs <> Panic.
Proof.
  induction fuel as [|f IH]; intros bs; destruct bs as [|b bs]; cbn [de_path]; try discriminate.
  pose proof (dec_u32_nopanic (b :: bs)). destruct (dec_u32 (b :: bs)) as [[n r]| |]; cbn [map_err bind]; try congruence.
  pose proof (IH r). destruct (de_path f r); cbn; congruence.
Qed.

Lemma path_length p : (length p <= length (enc_all enc_u32 p))%nat.
Proof.
  apply enc_all_length_ge. intros a _ E. pose proof (enc_u32_length a). rewrite E in H. discriminate.
Qed.

Lemma de_keysource_rt k :
  length (ks_fp k) = 4%nat -> Forall wf_u32 (ks_path k) -> de_keysource (ser_keysource k) = Ok k.
Proof.
  destruct k as [fp p]. cbn. intros Hf Hp. unfold ser_keysource, de_keysource. cbn [ks_fp ks_path].
  rewrite blen_app. unfold blen at 1. rewrite Hf.
  destruct (N.of_nat 4 + blen (enc_all enc_u32 p) <? 4) eqn:E; [lia|].
  rewrite (firstn_pre _ _ _ Hf), (skipn_pre _ _ _ Hf).
  rewrite de_path_rt; auto. pose proof (path_length p). rewrite app_length. lia.
Qed.

Lemma de_keysource_inv b k :
  de_keysource b = Ok k -> b = ser_keysource k /\ length (ks_fp k) = 4%nat /\ Forall wf_u32 (ks_path k).
Proof.
  unfold de_keysource. destruct (blen b <? 4) eqn:E; [discriminate|]. intros H. binds H. inj H.
  apply de_path_inv in Hx as [Hs Hp]. unfold ser_keysource. cbn [ks_fp ks_path].
  rewrite <- Hs.
  rewrite (firstn_skipn 4 b). repeat split; auto. rewrite firstn_length. unfold blen in E. lia.
Qed.

Lemma de_keysource_np b : de_keysource b <> Panic.
Proof.
  unfold de_keysource. destruct (_ <? _); [discriminate|].
  pose proof (de_path_np (length b) (skipn 4 b)). destruct (de_path _ _); cbn; congruence.
Qed.

Lemma keysource_codec : codec_ok VLIM wf_keysource ser_keysource de_keysource.
Proof.
  constructor.
  - intros a (H1 & H2 & _). now apply de_keysource_rt.
  - intros a (_ & _ & H). lims. lia.
  - intros b a Hb H. apply de_keysource_inv in H as (-> & H1 & H2). repeat split; auto.
  - apply de_keysource_np.
Qed.

Lemma keysource_canonical : canonical ser_keysource de_keysource.
Proof. intros b a H. now apply de_keysource_inv in H as [-> _]. Qed.

(** ** Lock times and versions *)

Lemma de_u32_inv b n : de_consensus dec_u32 b = Ok n -> b = enc_u32 n /\ wf_u32 n.
Proof.
  unfold de_consensus. intros H. apply map_err_ok in H.
  now apply (c_deserialize_canon wf_u32 enc_u32) in H; [|apply dec_u32_canon].
Qed.
Lemma de_u32_rt n : wf_u32 n -> de_consensus dec_u32 (enc_u32 n) = Ok n.
Proof.
  intros H. unfold de_consensus. rewrite (c_deserialize_rt wf_u32); auto. apply dec_u32_rt.
Qed.
Lemma de_u32_np b : de_consensus dec_u32 b <> Panic.
Proof.
  unfold de_consensus. pose proof (c_deserialize_nopanic dec_u32 b dec_u32_nopanic).
  destruct (c_deserialize dec_u32 b); cbn; congruence.
Qed.

Lemma height_codec : codec_ok VLIM wf_height ser_height de_height.
Proof.
  constructor; unfold wf_height, ser_height, de_height, LOCK_TIME_THRESHOLD.
  - intros a H. rewrite de_u32_rt by (unfold wf_u32, U32; lia). cbn.
    destruct (a <? 500000000) eqn:E; [reflexivity|lia].
  - intros a H. apply enc_u32_len. lims. lia.
  - intros b a _ H. binds H. destruct (x <? 500000000) eqn:E; [|discriminate]. inj H. lia.
  - intros b. pose proof (de_u32_np b). destruct (de_consensus dec_u32 b); cbn; try congruence.
    destruct (_ <? _); discriminate.
Qed.

Lemma time_codec : codec_ok VLIM wf_time ser_time de_time.
Proof.
  constructor; unfold wf_time, ser_time, de_time, LOCK_TIME_THRESHOLD.
  - intros a H. rewrite de_u32_rt by (unfold wf_u32, U32 in *; lia). cbn.
    destruct (500000000 <=? a) eqn:E; [reflexivity|lia].
  - intros a H. apply enc_u32_len. lims. lia.
  - intros b a _ H. binds H. destruct (500000000 <=? x) eqn:E; [|discriminate]. inj H.
    apply de_u32_inv in Hx as [_ Hx]. unfold wf_u32 in Hx. lia.
  - intros b. pose proof (de_u32_np b). destruct (de_consensus dec_u32 b); cbn; try congruence.
    destruct (_ <=? _); discriminate.
Qed.

Lemma version_codec : codec_ok VLIM wf_version ser_version de_version.
Proof.
  constructor; unfold wf_version, ser_version, de_version, version_try_from.
  - intros a H. rewrite de_u32_rt by (unfold wf_u32, U32 in *; lia). cbn.
    destruct H; subst; reflexivity.
  - intros a H. apply enc_u32_len. lims. lia.
  - intros b a _ H. binds H. destruct (x =? 0); [inj H; auto|]. destruct (x =? 2); [inj H; auto | discriminate].
  - intros b. pose proof (de_u32_np b). destruct (de_consensus dec_u32 b); cbn; try congruence.
    repeat destruct (_ =? _); discriminate.
Qed.

(** ** Taproot *)

Lemma xleaf_codec lim : 64 <= lim -> codec_ok lim wf_xleaf ser_xleaf de_xleaf.
Proof.
  intros Hl. constructor.
  - intros [a b] [[H1 H2] H3]. cbn in H1, H2, H3. unfold ser_xleaf, de_xleaf. cbn [fst snd].
    rewrite blen_app. unfold blen at 1. rewrite H1.
    destruct (N.of_nat 32 + blen b <? 32) eqn:E; [lia|].
    rewrite (firstn_pre _ _ _ H1), (skipn_pre _ _ _ H1).
    unfold de_xonly, blen. rewrite H1, H2. cbn [N.of_nat]. cbn [bind andb N.eqb Pos.eqb Pos.of_succ_nat Pos.succ].
    unfold de_hash, blen. rewrite H3. reflexivity.
  - intros [a b] [[H1 H2] H3]. cbn in H1, H3. unfold ser_xleaf. cbn. rewrite blen_app. unfold blen. lia.
  - intros b a _ H. unfold de_xleaf in H. destruct (_ <? _); [discriminate|]. binds H. inj H.
    apply (co_wf _ _ _ _ (xonly_codec VLIM ltac:(lims; lia))) in Hx.
    2:{ unfold blen. rewrite firstn_length. lims. lia. }
    unfold de_hash in Hx0. destruct (_ =? _) eqn:E; [|discriminate]. inj Hx0.
    split; auto. cbn. unfold blen in E. lia.
  - intros b. unfold de_xleaf, de_xonly, de_hash. destruct (_ <? _); [discriminate|].
    destruct (_ && _); cbn; try discriminate. destruct (_ =? _); cbn; discriminate.
Qed.

Lemma xleaf_canonical : canonical ser_xleaf de_xleaf.
Proof.
  intros b a H. unfold de_xleaf in H. destruct (_ <? _); [discriminate|]. binds H. inj H.
  unfold de_xonly in Hx. destruct (_ && _); [|discriminate]. inj Hx.
  unfold de_hash in Hx0. destruct (_ =? _); [|discriminate]. inj Hx0.
  unfold ser_xleaf. cbn [fst snd]. now rewrite firstn_skipn.
Qed.

Lemma leaf_ver_bounds v : leaf_version_ok v = true -> v mod 2 = 0.
Proof. unfold leaf_version_ok. rewrite andb_true_iff, N.eqb_eq. tauto. Qed.

Lemma controlblock_codec lim : 4129 <= lim -> codec_ok lim wf_controlblock ser_controlblock de_controlblock.
Proof.
  intros Hl. constructor.
  - intros [v p k br] ((Hv & Hok) & (Hk & Hx) & Hm & Hb). cbn [cb_ver cb_parity cb_internal cb_branch] in *.
    pose proof (leaf_ver_bounds _ Hok) as Hev.
    unfold ser_controlblock, de_controlblock. cbn [cb_ver cb_parity cb_internal cb_branch].
    assert (Hlen : blen (n2b (v + (if p then 1 else 0)) :: k ++ br) = 33 + blen br).
    { rewrite blen_cons, blen_app. unfold blen at 1. rewrite Hk. lia. }
    rewrite Hlen. replace (33 + blen br - 33) with (blen br) by lia. rewrite Hm.
    destruct (33 + blen br <? 33) eqn:E1; [lia|]. cbn [orb negb N.eqb].
    rewrite b2n_n2b by (destruct p; lia).
    assert (Hpar : (v + (if p then 1 else 0)) mod 2 = (if p then 1 else 0)) by (destruct p; lia).
    rewrite Hpar. replace (v + (if p then 1 else 0) - (if p then 1 else 0)) with v by (destruct p; lia).
    rewrite Hok. cbn [negb].
    rewrite (firstn_pre _ _ _ Hk), (skipn_pre _ _ _ Hk), Hx. cbn [negb].
    destruct (128 * 32 <? blen br) eqn:E2; [lia|]. destruct p; reflexivity.
  - intros [v p k br] ((Hv & Hok) & (Hk & Hx) & Hm & Hb). cbn [cb_ver cb_parity cb_internal cb_branch] in *.
    unfold ser_controlblock. cbn [cb_ver cb_parity cb_internal cb_branch]. rewrite blen_cons, blen_app. unfold blen at 1. rewrite Hk. lia.
  - intros b a _ H. unfold de_controlblock in H. destruct b as [|b r]; [discriminate|].
    destruct ((blen (b :: r) <? 33) || _) eqn:E1; [discriminate|]. cbv zeta in H.
    destruct (leaf_version_ok _) eqn:E2; cbn [negb] in H; [|discriminate].
    destruct (xonly_ok _) eqn:E3; cbn [negb] in H; [|discriminate].
    destruct (128 * 32 <? _) eqn:E4; [discriminate|]. inj H.
    apply orb_false_iff in E1 as [E1 E5]. apply negb_false_iff, N.eqb_eq in E5.
    rewrite blen_cons in *. unfold wf_controlblock, wf_leafver, wf_xonly. cbn [cb_ver cb_parity cb_internal cb_branch].
    pose proof (b2n_lt b). unfold blen in *. rewrite firstn_length, skipn_length.
    repeat split; auto; try lia.
  - intros b. unfold de_controlblock. destruct b as [|b r]; [discriminate|].
    destruct (_ || _); [discriminate|]. cbv zeta. repeat (destruct (negb _); [discriminate|]).
    destruct (_ <? _); discriminate.
Qed.

Lemma controlblock_canonical : canonical ser_controlblock de_controlblock.
Proof.
  intros b a H. unfold de_controlblock in H. destruct b as [|b r]; [discriminate|].
  destruct (_ || _); [discriminate|]. cbv zeta in H.
  destruct (leaf_version_ok _); cbn [negb] in H; [|discriminate].
  destruct (xonly_ok _); cbn [negb] in H; [|discriminate].
  destruct (_ <? _); [discriminate|]. inj H. unfold ser_controlblock. cbn [cb_ver cb_parity cb_internal cb_branch].
  rewrite firstn_skipn. f_equal. rewrite <- (n2b_b2n b) at 1. f_equal.
  destruct (b2n b mod 2 =? 1) eqn:E; lia.
Qed.

Lemma leafscript_rt v : wf_leafver (snd v) -> de_leafscript (ser_leafscript v) = Ok v.
Proof.
  destruct v as [s v]. intros (H2 & H3). cbn in H2, H3. unfold ser_leafscript, de_leafscript. cbn [fst snd].
  destruct (s ++ [n2b v]) eqn:E; [now apply app_eq_nil in E as []|]. rewrite <- E. clear E.
  rewrite last_last, removelast_last. rewrite b2n_n2b by assumption. cbv zeta. now rewrite H3.
Qed.

Lemma leafscript_codec : codec_ok VLIM wf_leafscript ser_leafscript de_leafscript.
Proof.
  constructor.
  - intros v (_ & H). now apply leafscript_rt.
  - intros [s v] (H1 & _). cbn in H1. unfold ser_leafscript. cbn [fst snd].
    rewrite blen_app. unfold blen at 2. cbn [length]. lims. lia.
  - intros b a Hb H. unfold de_leafscript in H. destruct b as [|x b]; [discriminate|]. cbv zeta in H.
    destruct (leaf_version_ok _) eqn:E; [|discriminate]. inj H. unfold wf_leafscript, wf_leafver. cbn [fst snd].
    assert (Hne : x :: b <> []) by discriminate.
    pose proof (f_equal (@length _) (app_removelast_last x00 Hne)) as Q.
    rewrite app_length in Q. unfold blen in *. cbn [length] in *.
    repeat split; auto; [lims; lia | apply b2n_lt].
  - intros b. unfold de_leafscript. destruct b as [|x b]; [discriminate|]. cbv zeta.
    destruct (leaf_version_ok _); discriminate.
Qed.

Lemma leafscript_canonical : canonical ser_leafscript de_leafscript.
Proof.
  intros b a H. unfold de_leafscript in H. destruct b as [|x b]; [discriminate|]. cbv zeta in H.
  destruct (leaf_version_ok _); [|discriminate]. inj H. unfold ser_leafscript. cbn [fst snd].
  rewrite n2b_b2n. apply app_removelast_last. discriminate.
Qed.

Lemma hashes_rt : rt (fun l => wf_vec l /\ Forall (wf_bytes_n 32) l) (enc_vec (fun h => h)) (dec_vec (c_take 32)).
Proof.
  apply dec_vec_rt.
  - intros a rest H. apply c_take_rt. unfold wf_bytes_n in H. unfold blen. lia.
  - intros a H E. unfold wf_bytes_n in H. subst. discriminate.
Qed.
Lemma hashes_canon : canon (fun l => wf_vec l /\ Forall (wf_bytes_n 32) l) (enc_vec (fun h => h)) (dec_vec (c_take 32)).
Proof.
  apply dec_vec_canon. intros bs a rest H. apply c_take_canon in H as [-> H].
  split; auto. unfold wf_bytes_n. unfold blen in H. lia.
Qed.

Lemma taporigin_vec l k : Forall (wf_bytes_n 32) l -> blen (ser_taporigin (l, k)) <= MAX_VALUE -> wf_vec l.
Proof.
  intros H Hl. unfold ser_taporigin, enc_vec in Hl. cbn [fst snd] in Hl. rewrite !blen_app in Hl.
  unfold wf_vec, U64. unfold MAX_VALUE in Hl. assert (blen l <= blen (enc_all (fun h => h) l)); [|lia].
  unfold blen. apply N.compare_le_iff. 
  assert ((length l <= length (enc_all (fun h : bytes => h) l))%nat).
  { apply enc_all_length_ge. intros a Ha E. rewrite Forall_forall in H. apply H in Ha. subst. discriminate. }
  apply N.compare_le_iff. lia.
Qed.

Lemma taporigin_rt l k : wf_vec l -> Forall (wf_bytes_n 32) l -> length (ks_fp k) = 4%nat ->
  Forall wf_u32 (ks_path k) -> de_taporigin (ser_taporigin (l, k)) = Ok (l, k).
Proof.
  intros H0 H1 H2 H3. unfold ser_taporigin, de_taporigin. cbn [fst snd].
  rewrite hashes_rt by auto. cbn [map_err bind]. rewrite de_keysource_rt by assumption. reflexivity.
Qed.

Lemma taporigin_codec : codec_ok VLIM wf_taporigin ser_taporigin de_taporigin.
Proof.
  constructor.
  - intros [l k] (H1 & H2 & H3 & H4). cbn [fst snd] in *. pose proof (taporigin_vec _ _ H1 H4).
    now apply taporigin_rt.
  - intros [l k] (_ & _ & _ & H). lims. lia.
  - intros b a Hb H. unfold de_taporigin in H. binds H. inj H. apply map_err_ok in Hx.
    apply hashes_canon in Hx as [-> [H1 H2]]. apply de_keysource_inv in Hx0 as (-> & H3 & H4).
    repeat split; auto.
  - intros b. unfold de_taporigin. pose proof (dec_vec_nopanic _ (c_take_nopanic 32) b).
    destruct (dec_vec (c_take 32) b) as [[l r]| |]; cbn [map_err bind]; try congruence.
    pose proof (de_keysource_np r). destruct (de_keysource r); cbn; congruence.
Qed.

Lemma taporigin_canonical : canonical ser_taporigin de_taporigin.
Proof.
  intros b a H. unfold de_taporigin in H. binds H. inj H. apply map_err_ok in Hx.
  apply hashes_canon in Hx as [-> _]. apply de_keysource_inv in Hx0 as (-> & _). reflexivity.
Qed.

(** The taproot tree codec preserves the root hash, not necessarily the leaf order
    among siblings of equal hash, so it has its own statement: [taptree_roundtrip]. *)

(** ** Sort keys *)

Lemma sk_part_inj a b r s : sk_part a ++ r = sk_part b ++ s -> a = b /\ r = s.
Proof.
  unfold sk_part. revert b. induction a as [|x a IH]; intros [|y b] H; cbn in H.
  - injection H as H. auto.
  - injection H as H _. lia.
  - injection H as H _. lia.
  - injection H as H1 H2. apply IH in H2 as [-> ->]. split; auto. f_equal. apply b2n_inj. lia.
Qed.
Lemma sk_xleaf_inj a b : sk_xleaf a = sk_xleaf b -> a = b.
Proof.
  destruct a, b. unfold sk_xleaf. cbn [fst snd]. intros H. apply sk_part_inj in H as [-> H].
  apply bkey_inj in H. congruence.
Qed.
Lemma sk_controlblock_inj a b : sk_controlblock a = sk_controlblock b -> a = b.
Proof.
  destruct a as [v p k r], b as [v' p' k' r']. unfold sk_controlblock.
  cbn [cb_ver cb_parity cb_internal cb_branch]. intros H.
  assert (G : v = v' /\ (if p then 1 else 0) :: sk_part k ++ bkey r = (if p' then 1 else 0) :: sk_part k' ++ bkey r').
  { destruct (v =? 192) eqn:E1, (v' =? 192) eqn:E2; cbn [app] in H.
    - apply N.eqb_eq in E1, E2. split; congruence.
    - discriminate.
    - discriminate.
    - split; congruence. }
  destruct G as [-> [= H1 H2]]. apply sk_part_inj in H2 as [-> H2]. apply bkey_inj in H2 as ->.
  destruct p, p'; congruence.
Qed.
Lemma sk_xpub_inj a b : sk_xpub a = sk_xpub b -> a = b.
Proof.
  destruct a as [m d f c cc pk], b as [m' d' f' c' cc' pk']. unfold sk_xpub.
  cbn [xp_main xp_depth xp_fp xp_child xp_cc xp_pk]. intros [= H1 H2 H3].
  apply sk_part_inj in H3 as [-> H3]. apply sk_part_inj in H3 as [-> H3].
  apply sk_part_inj in H3 as [-> H3]. apply bkey_inj in H3 as ->. apply b2n_inj in H2 as ->.
  destruct m, m'; congruence.
Qed.

(** ** Extended public keys *)

Lemma de_xpub_rt x : wf_xpub x -> de_xpub (ser_xpub x) = Some x.
Proof.
  destruct x as [m d fp ch cc pk]. intros (H1 & H2 & H3 & H4). cbn in H1, H2, H3, H4.
  pose proof (secp_parse_len _ _ H4) as H5.
  unfold de_xpub, ser_xpub. cbn [xp_main xp_depth xp_fp xp_child xp_cc xp_pk].
  assert (Hm : length (xpub_magic m) = 4%nat) by (destruct m; reflexivity).
  assert (Hlen : blen (xpub_magic m ++ d :: fp ++ ch ++ cc ++ pk) = 78).
  { unfold blen. rewrite app_length. cbn [length]. rewrite !app_length, Hm, H1, H2, H3, H5. reflexivity. }
  rewrite Hlen. cbn [N.eqb Pos.eqb].
  rewrite (firstn_pre _ _ _ Hm), (skipn_pre _ _ _ Hm). cbn [app].
  assert (E1 : skipn 40 (fp ++ ch ++ cc ++ pk) = pk).
  { rewrite !app_assoc. apply skipn_pre. rewrite !app_length. lia. }
  assert (E2 : firstn 4 (fp ++ ch ++ cc ++ pk) = fp) by now apply firstn_pre.
  assert (E3 : firstn 4 (skipn 4 (fp ++ ch ++ cc ++ pk)) = ch).
  { rewrite (skipn_pre 4 fp) by assumption. now apply firstn_pre. }
  assert (E4 : firstn 32 (skipn 8 (fp ++ ch ++ cc ++ pk)) = cc).
  { rewrite (app_assoc fp). rewrite skipn_pre by (rewrite app_length; lia). now apply firstn_pre. }
  rewrite E1, E2, E3, E4. rewrite !H4.
  destruct m; reflexivity.
Qed.

Lemma de_xpub_wf b x : de_xpub b = Some x -> wf_xpub x /\ b = ser_xpub x.
Proof.
  unfold de_xpub. destruct (blen b =? 78) eqn:E; [|discriminate]. apply N.eqb_eq in E. unfold blen in E.
  assert (Hlen : length b = 78%nat) by lia. clear E.
  assert (G : forall m, bytes_eqb (firstn 4 b) (xpub_magic m) = true ->
    match skipn 4 b with
    | [] => None
    | d :: r =>
        match secp_parse (skipn 40 r) with
        | Some _ => Some (Xpub m d (firstn 4 r) (firstn 4 (skipn 4 r)) (firstn 32 (skipn 8 r)) (skipn 40 r))
        | None => None
        end
    end = Some x -> wf_xpub x /\ b = ser_xpub x).
  { intros m Hm H. apply bytes_eqb_eq in Hm.
    pose proof (firstn_skipn 4 b) as Hb. rewrite Hm in Hb.
    destruct (skipn 4 b) as [|d r] eqn:Er; [discriminate|].
    assert (Hr : length r = 73%nat).
    { rewrite <- Hb in Hlen. rewrite app_length in Hlen. cbn [length] in Hlen. destruct m; cbn in Hlen; lia. }
    destruct (secp_parse (skipn 40 r)) as [c|] eqn:Ep; [|discriminate]. inj H.
    assert (Hpk : length (skipn 40 r) = 33%nat) by (rewrite skipn_length; lia).
    pose proof (secp_parse_33 _ _ Ep Hpk) as ->.
    split.
    - unfold wf_xpub, wf_secp. cbn [xp_fp xp_child xp_cc xp_pk].
      rewrite !firstn_length, !skipn_length. repeat split; auto; lia.
    - unfold ser_xpub. cbn [xp_main xp_depth xp_fp xp_child xp_cc xp_pk].
      f_equal. f_equal.
      assert (F : r = firstn 4 r ++ firstn 4 (skipn 4 r) ++ firstn 32 (skipn 8 r) ++ skipn 40 r).
      { rewrite <- (firstn_skipn 4 r) at 1. f_equal.
        rewrite <- (firstn_skipn 4 (skipn 4 r)) at 1. f_equal.
        rewrite skipn_twice. change (4 + 4)%nat with 8%nat.
        rewrite <- (firstn_skipn 32 (skipn 8 r)) at 1. f_equal.
        rewrite skipn_twice. reflexivity. }
      exact F. }
  cbv zeta. intros H.
  destruct (bytes_eqb (firstn 4 b) (xpub_magic true)) eqn:E1; [now apply (G true)|].
  destruct (bytes_eqb (firstn 4 b) (xpub_magic false)) eqn:E2; [now apply (G false)|discriminate].
Qed.

Lemma ser_xpub_len x : wf_xpub x -> blen (ser_xpub x) = 78.
Proof.
  intros (H1 & H2 & H3 & H4). pose proof (secp_parse_len _ _ H4) as H5.
  unfold ser_xpub, blen. rewrite app_length. cbn [length]. rewrite !app_length, H1, H2, H3, H5.
  destruct (xp_main x); reflexivity.
Qed.

(** ** Silent payments *)

Lemma dleq_codec : codec_ok VLIM wf_dleq ser_dleq de_dleq.
Proof.
  constructor; unfold wf_dleq, ser_dleq, de_dleq, dleq_try_from.
  - intros a H. unfold blen. rewrite H. reflexivity.
  - intros a H. unfold blen. rewrite H. lims. lia.
  - intros b a _ H. destruct (blen b =? 64) eqn:E; [|discriminate]. inj H. unfold blen in E. lia.
  - intros b. destruct (_ =? _); discriminate.
Qed.

End Facts.

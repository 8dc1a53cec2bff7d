(** Field laws of the global map (src/v2/map/global.rs) and their consequences. *)
From Coq Require Import Permutation.
From Verif Require Import Base OMap Consensus ConsensusFacts Ext Raw RawFacts TapTree TapTreeFacts
  Serialize SerializeFacts MapCodec MapFacts V2Input V2InputFacts V2Global.
Local Open Scope N_scope.

(** The fields of [gdec] in the order in which they are serialized. *)
Inductive gfield : Type :=
| GVersion
| GTxVersion
| GFallback
| GCounts
| GFlags
| GXpubs
| GSpEcdhShares
| GSpDleqProofs
| GProprietaries
| GUnknowns.

Definition gfield_dec (a b : gfield) : {a = b} + {a <> b}.
Proof. decide equality. Defined.

Definition gorder : list gfield :=
  [GVersion; GTxVersion; GFallback; GCounts; GFlags; GXpubs; GSpEcdhShares; GSpDleqProofs; GProprietaries; GUnknowns].

Section Facts.
Context `{X : Ext} {L : ExtLaws X} `{C : Cfg}.

(** ** The hand written fields accept the same pairs as the generic ones *)

Lemma dec_u32_four v : blen v =? 4 = true -> dec_u32 v = Ok (le_dec v, []).
Proof.
  intros H. unfold dec_u32, dec_le, c_take. rewrite <- (app_nil_r v) at 1. rewrite take_app_n by lia. reflexivity.
Qed.
Lemma de_u32_four v : de_u32 v = if blen v =? 4 then Ok (le_dec v) else de_u32 v.
Proof.
  destruct (blen v =? 4) eqn:E; auto. unfold de_u32, de_consensus, c_deserialize. now rewrite dec_u32_four.
Qed.
Lemma de_u32_not_four v n : de_u32 v = Ok n -> blen v =? 4 = true.
Proof. intros H. apply de_u32_inv in H as [-> _]. unfold blen, ser_u32. rewrite enc_u32_length. reflexivity. Qed.

Definition de_gversion (b : bytes) : res serr N :=
  n <- de_u32 b ;; if n =? 2 then Ok n else Err SNoMorePairs.
Definition de_gflags (b : bytes) : res serr N :=
  match b with [x] => Ok (b2n x) | _ => Err SNoMorePairs end.
Definition ser_gflags (n : N) : bytes := [n2b n].

Lemma gversion_codec : codec_ok VLIM (eq 2) ser_version de_gversion.
Proof.
  unfold de_gversion. constructor.
  - intros a <-. change (ser_version 2) with (ser_u32 2). rewrite de_u32_rt by reflexivity. reflexivity.
  - intros a <-. reflexivity || (unfold ser_version, blen; rewrite enc_u32_length; lims; lia).
  - intros b a _ H. binds H. destruct (x =? 2) eqn:E; [|discriminate]. inj H. lia.
  - intros b. pose proof (de_u32_np b : de_u32 b <> Panic). destruct (de_u32 b); cbn; try congruence. destruct (_ =? _); discriminate.
Qed.
Lemma gflags_codec : codec_ok VLIM wf_u8 ser_gflags de_gflags.
Proof.
  unfold de_gflags, ser_gflags, wf_u8. constructor.
  - intros a H. now rewrite b2n_n2b.
  - intros a _. unfold blen. cbn [length]. lims. lia.
  - intros b a _ H. destruct b as [|x [|y b]]; try discriminate. inj H. apply b2n_lt.
  - intros b. destruct b as [|x [|y b]]; discriminate.
Qed.

Lemma gins_version_equiv p a a' : ins_opt de_gversion p a = Ok a' <-> gins_version p a = Ok a'.
Proof.
  unfold ins_opt, gins_version, de_gversion. destruct (is_empty _); [|split; discriminate].
  destruct a as [a|]; cbn [is_none]; [split; discriminate|].
  rewrite de_u32_four. destruct (blen (p_value p) =? 4) eqn:E; cbn [negb fail_if bind].
  - rewrite dec_u32_four by assumption. cbn [map_err bind].
    destruct (le_dec (p_value p) =? 2); cbn [negb fail_if bind map_err]; split; try discriminate; auto.
  - split; [|discriminate]. intros H. exfalso. destruct (de_u32 (p_value p)) eqn:D; [|discriminate..].
    apply de_u32_not_four in D. congruence.
Qed.
Lemma gins_u32_equiv p a a' : ins_opt de_u32 p a = Ok a' <-> gins_u32 p a = Ok a'.
Proof.
  unfold ins_opt, gins_u32. destruct (is_empty _); [|split; discriminate].
  destruct a as [a|]; cbn [is_none]; [split; discriminate|].
  rewrite de_u32_four. destruct (blen (p_value p) =? 4) eqn:E; cbn [negb fail_if bind].
  - rewrite dec_u32_four by assumption. cbn [map_err bind]. tauto.
  - split; [|discriminate]. intros H. exfalso. destruct (de_u32 (p_value p)) eqn:D; [|discriminate..].
    apply de_u32_not_four in D. congruence.
Qed.
Lemma gins_flags_equiv p a a' : ins_opt de_gflags p a = Ok a' <-> gins_flags p a = Ok a'.
Proof.
  unfold ins_opt, gins_flags, de_gflags. destruct (is_empty _); [|split; discriminate].
  destruct a as [a|]; cbn [is_none]; [split; discriminate|].
  destruct (p_value p) as [|x [|y v]]; cbn [map_err bind].
  - split; discriminate.
  - unfold blen. cbn. tauto.
  - split; [discriminate|]. destruct (_ =? 1) eqn:E; [|discriminate]. unfold blen in E. cbn [length] in E. lia.
Qed.

Lemma gins_version_np p a : gins_version p a <> Panic.
Proof.
  unfold gins_version, fail_if. destruct (is_empty _); [|discriminate]. destruct (is_none a); [|discriminate].
  destruct (negb _); [discriminate|]. cbn [bind]. pose proof (dec_u32_nopanic (p_value p)).
  destruct (dec_u32 _) as [[n r]| |]; cbn; try congruence. destruct (negb _); discriminate.
Qed.
Lemma gins_u32_np p a : gins_u32 p a <> Panic.
Proof.
  unfold gins_u32, fail_if. destruct (is_empty _); [|discriminate]. destruct (is_none a); [|discriminate].
  destruct (negb _); [discriminate|]. cbn [bind]. pose proof (dec_u32_nopanic (p_value p)).
  destruct (dec_u32 _) as [[n r]| |]; cbn; congruence.
Qed.
Lemma gins_flags_np p a : gins_flags p a <> Panic.
Proof.
  unfold gins_flags, fail_if. destruct (is_empty _); [|discriminate]. destruct (is_none a); [|discriminate].
  destruct (negb _); [discriminate|]. cbn [bind]. pose proof (dec_u8_nopanic (p_value p)).
  destruct (dec_u8 _) as [[n r]| |]; cbn; congruence.
Qed.

(** Extended public keys. *)
Definition dek_xpub (b : bytes) : res serr xpub := ok_or (de_xpub b) SNoMorePairs.
Lemma xpub_codec : codec_ok KLIM wf_xpub ser_xpub dek_xpub.
Proof.
  unfold dek_xpub. constructor.
  - intros a H. now rewrite de_xpub_rt.
  - intros a H. rewrite ser_xpub_len by assumption. lims. lia.
  - intros b a _ H. apply ok_or_ok in H. now apply de_xpub_wf in H.
  - intros b. destruct (de_xpub b); discriminate.
Qed.
Lemma xpub_nonempty k : wf_xpub k -> ser_xpub k <> [].
Proof. intros H E. apply ser_xpub_len in H. rewrite E in H. discriminate. Qed.

Lemma read_u32s_path fuel : forall bs, blen bs mod 4 = 0 -> (length bs <= fuel)%nat ->
  de_path fuel bs = Ok (read_u32s fuel bs).
Proof.
  induction fuel as [|f IH]; intros bs Hm Hl.
  - destruct bs; [reflexivity|cbn in Hl; lia].
  - destruct bs as [|b bs]; [reflexivity|]. cbn [de_path read_u32s].
    destruct (dec_u32 (b :: bs)) as [[n r]|e|] eqn:E; cbn [map_err bind].
    + apply dec_u32_canon in E as [E _]. assert (Hr : blen (b :: bs) = 4 + blen r).
      { rewrite E, blen_app. unfold blen at 1. rewrite enc_u32_length. reflexivity. }
      rewrite IH; [reflexivity|lia|]. unfold blen in Hr. lia.
    + exfalso. unfold dec_u32, dec_le, c_take in E.
      destruct (take 4 (b :: bs)) as [[x y]|] eqn:T; [discriminate|].
      apply take_none in T. unfold blen in *. cbn [length] in *. lia.
    + exfalso. now apply (dec_u32_nopanic (b :: bs)).
Qed.
Lemma keysource_read v : blen v <? 4 = false -> blen v mod 4 =? 0 = true ->
  de_keysource v = Ok (KeySource (firstn 4 v) (read_u32s (length v) (skipn 4 v))).
Proof.
  intros H1 H2. unfold de_keysource. rewrite H1. rewrite read_u32s_path; [reflexivity| |].
  - unfold blen in *. rewrite skipn_length. lia.
  - rewrite skipn_length. lia.
Qed.
Lemma keysource_len_mod v k : de_keysource v = Ok k -> blen v <? 4 = false /\ blen v mod 4 =? 0 = true.
Proof.
  intros H. apply de_keysource_inv in H as (-> & Hf & _). unfold ser_keysource. rewrite blen_app.
  assert (Hp : forall l, blen (enc_all enc_u32 l) = 4 * blen l).
  { induction l as [|n l IH]; [reflexivity|]. rewrite enc_all_cons, blen_app, IH, blen_cons.
    unfold blen at 1. rewrite enc_u32_length. lia. }
  rewrite Hp. unfold blen at 1 3. rewrite Hf. split; lia.
Qed.

Lemma gins_xpub_equiv p m m' : ins_map sk_xpub dek_xpub de_keysource p m = Ok m' <-> gins_xpub p m = Ok m'.
Proof.
  unfold ins_map, gins_xpub, dek_xpub. destruct (is_empty (k_data _)); [split; discriminate|].
  destruct (de_xpub _) as [x|]; cbn [ok_or map_err bind]; [|split; discriminate].
  assert (Hnone : p_value p = [] -> blen (p_value p) <? 4 = true) by (intros ->; reflexivity).
  destruct (is_empty (p_value p)) eqn:Ee; cbn [fail_if bind].
  { apply is_empty_nil in Ee. unfold de_keysource. rewrite Hnone by assumption. cbn [map_err bind].
    destruct (m_mem _ _ _); split; discriminate. }
  unfold m_mem. destruct (m_get sk_xpub x m).
  - split; [discriminate|]. destruct (blen _ <? 4); cbn [fail_if bind]; [discriminate|].
    destruct (negb _); discriminate.
  - destruct (de_keysource (p_value p)) as [k|e|] eqn:Ek; cbn [map_err bind].
    + destruct (keysource_len_mod _ _ Ek) as [E1 E2]. rewrite E1, E2. cbn [negb fail_if bind].
      pose proof (keysource_read _ E1 E2) as Q. rewrite Ek in Q. apply Ok_inj in Q. rewrite Q. tauto.
    + split; [discriminate|]. destruct (blen (p_value p) <? 4) eqn:E1; cbn [fail_if bind]; [discriminate|].
      destruct (blen (p_value p) mod 4 =? 0) eqn:E2; cbn [negb fail_if bind]; [|discriminate].
      rewrite (keysource_read _ E1 E2) in Ek. discriminate.
    + now apply de_keysource_np in Ek.
Qed.
Lemma gins_xpub_np p m : gins_xpub p m <> Panic.
Proof.
  unfold gins_xpub, fail_if. destruct (is_empty _); [discriminate|].
  destruct (de_xpub _); cbn [ok_or bind]; [|discriminate].
  destruct (is_empty _); [discriminate|]. cbn [bind]. destruct (_ <? _); [discriminate|]. cbn [bind].
  destruct (negb _); [discriminate|]. cbn [bind]. destruct (m_get _ _ _); discriminate.
Qed.

(** Proprietary pairs. *)
Lemma gins_prop_equiv p m m' :
  ins_prop (fun _ => IInvalidProprietaryKey) p m = Ok m' <-> gins_prop p m = Ok m'.
Proof.
  unfold gins_prop. destruct (is_empty _) eqn:E; [|tauto]. split; [|discriminate].
  intros H. exfalso. apply is_empty_nil in E. unfold ins_prop in H. binds H. apply map_err_ok in Hx.
  apply propkey_try_from_inv in Hx as [Hx _]. rewrite Hx in E. unfold propkey_to_key in E. cbn [k_data] in E.
  unfold enc_propkey in E. destruct (enc_bytes (pk_prefix x)); discriminate.
Qed.
Lemma gins_prop_np p m : gins_prop p m <> Panic.
Proof.
  unfold gins_prop. destruct (is_empty _); [discriminate|]. apply (fs_np _ _ _ _ _ _ (prop_fspec _)).
Qed.

(** The two counts. *)
Definition gcounts_upd (p : pair) (c : option N * option N) : res ierr (option N * option N) :=
  if beq (ptype p) x04 then gins_input_count p c else gins_output_count p c.
Definition gcounts_pairs (c : option N * option N) : list pair :=
  opt_pairs x04 ser_varint (fst c) ++ opt_pairs x05 ser_varint (snd c).
Definition gcounts_wf (c : option N * option N) : Prop := opt_all wf_u64 (fst c) /\ opt_all wf_u64 (snd c).

Lemma varint_all n : wf_u64 n -> dec_varint (ser_varint n) = Ok (n, []).
Proof. intros H. rewrite <- (app_nil_r (ser_varint n)). now apply dec_varint_rt. Qed.
Lemma gcounts_fspec :
  fspec (fun t => x04 = t \/ x05 = t) gcounts_upd gcounts_pairs (None, None) gcounts_wf (fun c => c).
Proof.
  constructor.
  - intros [a b] [Ha Hb]. unfold gcounts_pairs. cbn [fst snd] in *. rewrite ins_all_app.
    assert (E1 : ins_all gcounts_upd (opt_pairs x04 ser_varint a) (None, None) = Ok (a, None)).
    { destruct a as [a|]; [|reflexivity]. cbn [opt_pairs ins_all]. unfold gcounts_upd, gins_input_count.
      cbn [ptype p_key k_type beq k_data is_empty snd is_none p_value]. cbn in Ha. now rewrite varint_all. }
    rewrite E1. cbn [bind]. destruct b as [b|]; [|reflexivity]. cbn [opt_pairs ins_all].
    unfold gcounts_upd, gins_output_count.
    cbn [ptype p_key k_type beq k_data is_empty snd fst is_none p_value]. cbn in Hb. now rewrite varint_all.
  - split; exact I.
  - intros p [a b] c' _ _ [Ha Hb] H. unfold gcounts_upd, gins_input_count, gins_output_count in H. cbn [fst snd] in *.
    destruct (beq _ _); (destruct (is_empty _); [|discriminate]); (destruct (is_none b); [|discriminate]); binds H;
      apply map_err_ok in Hx; apply dec_varint_canon in Hx as [_ Hx]; inj H; split; assumption.
  - intros p c. unfold gcounts_upd, gins_input_count, gins_output_count. pose proof (dec_varint_nopanic (p_value p)).
    destruct (beq _ _); (destruct (is_empty _); [|discriminate]); (destruct (is_none _); [|discriminate]);
      destruct (dec_varint _) as [[n r]| |]; cbn; congruence.
  - intros [a b] [Ha Hb]. unfold gcounts_pairs. apply Forall_app. cbn [fst snd] in *. split.
    + apply (fs_pw _ _ _ _ _ _ (opt_fspec x04 _ _ _ varint_codec)). exact Ha.
    + apply (fs_pw _ _ _ _ _ _ (opt_fspec x05 _ _ _ varint_codec)). exact Hb.
  - intros [a b] p _ Hin. unfold gcounts_pairs in Hin. apply in_app_iff in Hin as [Hin|Hin]; cbn [fst snd] in Hin.
    + left. destruct a; [|destruct Hin]. destruct Hin as [<-|[]]. reflexivity.
    + right. destruct b; [|destruct Hin]. destruct Hin as [<-|[]]. reflexivity.
  - intros [[a|] [b|]] _; cbn.
    + constructor; [|constructor; [tauto|constructor]]. intros [E|[]]. discriminate.
    + constructor; [tauto|constructor].
    + constructor; [tauto|constructor].
    + constructor.
Qed.


(** Type of a field. *)
Definition gty (f : gfield) : Type :=
  match f with
  | GVersion => option N
  | GTxVersion => option N
  | GFallback => option N
  | GCounts => (option N * option N)%type
  | GFlags => option N
  | GXpubs => list (xpub * keysource)
  | GSpEcdhShares => list (bytes * bytes)
  | GSpDleqProofs => list (bytes * bytes)
  | GProprietaries => list (propkey * bytes)
  | GUnknowns => list (key * bytes)
  end.

Definition gget (f : gfield) : gdec -> gty f :=
  match f return gdec -> gty f with
  | GVersion => gd_version
  | GTxVersion => gd_tx_version
  | GFallback => gd_fallback_lock_time
  | GCounts => gd_counts
  | GFlags => gd_tx_modifiable_flags
  | GXpubs => gd_xpubs
  | GSpEcdhShares => gd_sp_ecdh_shares
  | GSpDleqProofs => gd_sp_dleq_proofs
  | GProprietaries => gd_proprietaries
  | GUnknowns => gd_unknowns
  end.

Definition gset (f : gfield) : gty f -> gdec -> gdec :=
  match f return gty f -> gdec -> gdec with
  | GVersion => set_gd_version
  | GTxVersion => set_gd_tx_version
  | GFallback => set_gd_fallback_lock_time
  | GCounts => set_gd_counts
  | GFlags => set_gd_tx_modifiable_flags
  | GXpubs => set_gd_xpubs
  | GSpEcdhShares => set_gd_sp_ecdh_shares
  | GSpDleqProofs => set_gd_sp_dleq_proofs
  | GProprietaries => set_gd_proprietaries
  | GUnknowns => set_gd_unknowns
  end.

(** The field a key type belongs to. *)
Definition gslot (t : byte) : gfield :=
  if beq t xfb then GVersion else
  if beq t x02 then GTxVersion else
  if beq t x03 then GFallback else
  if beq t x04 then GCounts else
  if beq t x05 then GCounts else
  if beq t x06 then GFlags else
  if beq t x01 then GXpubs else
  if beq t xfc then GProprietaries else
  if feat_sp && beq t x07 then GSpEcdhShares else
  if feat_sp && beq t x08 then GSpDleqProofs else
  GUnknowns.

(** What a pair does to its field. *)
Definition gupd (f : gfield) : pair -> gty f -> res ierr (gty f) :=
  match f return pair -> gty f -> res ierr (gty f) with
  | GVersion => gins_version
  | GTxVersion => gins_u32
  | GFallback => gins_u32
  | GCounts => gcounts_upd
  | GFlags => gins_flags
  | GXpubs => gins_xpub
  | GSpEcdhShares => ins_sp de_cpk 33
  | GSpDleqProofs => ins_sp dleq_try_from 64
  | GProprietaries => gins_prop
  | GUnknowns => guarded (fun t => beq t x00) (fun p => IExcludedKey (ptype p)) ins_unknown
  end.

(** The pairs of a field. *)
Definition gfpairs (f : gfield) : gty f -> list pair :=
  match f return gty f -> list pair with
  | GVersion => opt_pairs xfb ser_version
  | GTxVersion => opt_pairs x02 ser_txversion
  | GFallback => opt_pairs x03 ser_locktime
  | GCounts => gcounts_pairs
  | GFlags => opt_pairs x06 ser_gflags
  | GXpubs => map_pairs x01 ser_xpub ser_keysource
  | GSpEcdhShares => fun a => if feat_sp then map_pairs x07 ser_secp ser_secp a else []
  | GSpDleqProofs => fun a => if feat_sp then map_pairs x08 ser_secp ser_dleq a else []
  | GProprietaries => prop_pairs
  | GUnknowns => unknown_pairs
  end.

(** The field before the first pair. *)
Definition gempty (f : gfield) : gty f :=
  match f return gty f with
  | GVersion => None
  | GTxVersion => None
  | GFallback => None
  | GCounts => (None, None)
  | GFlags => None
  | GXpubs => []
  | GSpEcdhShares => []
  | GSpDleqProofs => []
  | GProprietaries => []
  | GUnknowns => []
  end.

(** Well-formed contents of a field. *)
Definition gfwf (f : gfield) : gty f -> Prop :=
  match f return gty f -> Prop with
  | GVersion => opt_all (eq 2)
  | GTxVersion => opt_all wf_u32
  | GFallback => opt_all wf_u32
  | GCounts => gcounts_wf
  | GFlags => opt_all wf_u8
  | GXpubs => wf_map sk_xpub wf_xpub wf_keysource
  | GSpEcdhShares => fun a => if feat_sp then wf_map bkey wf_secp wf_secp a else a = []
  | GSpDleqProofs => fun a => if feat_sp then wf_map bkey wf_secp wf_dleq a else a = []
  | GProprietaries => wf_props
  | GUnknowns => wf_unknowns (fun t => gslot t = GUnknowns /\ beq t x00 = false)
  end.

(** What is read back. *)
Definition gnorm (f : gfield) : gty f -> gty f :=
  match f return gty f -> gty f with
  | GVersion => fun a => a
  | GTxVersion => fun a => a
  | GFallback => fun a => a
  | GCounts => fun a => a
  | GFlags => fun a => a
  | GXpubs => fun a => a
  | GSpEcdhShares => fun a => a
  | GSpDleqProofs => fun a => a
  | GProprietaries => fun a => a
  | GUnknowns => fun a => a
  end.

Lemma gframe : frame_ok gty gget gset gupd gslot global_insert_pair.
Proof.
  constructor.
  - intros f v s. destruct f; reflexivity.
  - intros f g v s H. destruct f, g; try reflexivity; now destruct H.
  - intros s s' H.
    pose proof (H GVersion) as E0.
    pose proof (H GTxVersion) as E1.
    pose proof (H GFallback) as E2.
    pose proof (H GCounts) as E3.
    pose proof (H GFlags) as E4.
    pose proof (H GXpubs) as E5.
    pose proof (H GSpEcdhShares) as E6.
    pose proof (H GSpDleqProofs) as E7.
    pose proof (H GProprietaries) as E8.
    pose proof (H GUnknowns) as E9.
    clear H. destruct s, s'. cbn in E0, E1, E2, E3, E4, E5, E6, E7, E8, E9. subst. reflexivity.
  - intros p s. unfold global_insert_pair, gslot, ptype. cbv zeta.
    destruct (beq (k_type (p_key p)) xfb); [reflexivity|].
    destruct (beq (k_type (p_key p)) x02); [reflexivity|].
    destruct (beq (k_type (p_key p)) x03); [reflexivity|].
    destruct (beq (k_type (p_key p)) x04) eqn:E4; [cbn [gupd]; unfold gcounts_upd, ptype; rewrite E4; reflexivity|].
    destruct (beq (k_type (p_key p)) x05); [cbn [gupd]; unfold gcounts_upd, ptype; rewrite E4; reflexivity|].
    destruct (beq (k_type (p_key p)) x06); [reflexivity|].
    destruct (beq (k_type (p_key p)) x01); [reflexivity|].
    destruct (beq (k_type (p_key p)) xfc); [reflexivity|].
    destruct (feat_sp && beq (k_type (p_key p)) x07); [reflexivity|].
    destruct (feat_sp && beq (k_type (p_key p)) x08); [reflexivity|].
    cbn [gupd]. unfold guarded, ptype. destruct (beq (k_type (p_key p)) x00); reflexivity.
Qed.

Lemma gslot_GVersion t : xfb = t <-> gslot t = GVersion.
Proof. destruct feat_sp eqn:F; slot_tac gslot F. Qed.
Lemma gslot_GTxVersion t : x02 = t <-> gslot t = GTxVersion.
Proof. destruct feat_sp eqn:F; slot_tac gslot F. Qed.
Lemma gslot_GFallback t : x03 = t <-> gslot t = GFallback.
Proof. destruct feat_sp eqn:F; slot_tac gslot F. Qed.
Lemma gslot_GCounts t : (x04 = t \/ x05 = t) <-> gslot t = GCounts.
Proof. destruct feat_sp eqn:F; slot_tac2 gslot F. Qed.
Lemma gslot_GFlags t : x06 = t <-> gslot t = GFlags.
Proof. destruct feat_sp eqn:F; slot_tac gslot F. Qed.
Lemma gslot_GXpubs t : x01 = t <-> gslot t = GXpubs.
Proof. destruct feat_sp eqn:F; slot_tac gslot F. Qed.
Lemma gslot_GSpEcdhShares t : feat_sp = true -> (x07 = t <-> gslot t = GSpEcdhShares).
Proof. intros F. slot_tac gslot F. Qed.
Lemma gslot_GSpEcdhShares_off t : feat_sp = false -> gslot t <> GSpEcdhShares.
Proof. intros F. slot_off gslot F. Qed.
Lemma gslot_GSpDleqProofs t : feat_sp = true -> (x08 = t <-> gslot t = GSpDleqProofs).
Proof. intros F. slot_tac gslot F. Qed.
Lemma gslot_GSpDleqProofs_off t : feat_sp = false -> gslot t <> GSpDleqProofs.
Proof. intros F. slot_off gslot F. Qed.
Lemma gslot_GProprietaries t : xfc = t <-> gslot t = GProprietaries.
Proof. destruct feat_sp eqn:F; slot_tac gslot F. Qed.

Lemma gspec f : fspec (fun t => gslot t = f) (gupd f) (gfpairs f) (gempty f) (gfwf f) (gnorm f).
Proof.
  destruct f; cbn [gupd gfpairs gempty gfwf gnorm gty].

  - apply (fspec_types (eq xfb)); [intros t; apply gslot_GVersion|]. exact (fspec_equiv _ _ _ (fun p a a' _ => gins_version_equiv p a a') _ _ _ _ gins_version_np (opt_fspec xfb _ _ _ gversion_codec)).
  - apply (fspec_types (eq x02)); [intros t; apply gslot_GTxVersion|]. exact (fspec_equiv _ _ _ (fun p a a' _ => gins_u32_equiv p a a') _ _ _ _ gins_u32_np (opt_fspec x02 _ _ _ (u32_codec VLIM ltac:(lims; lia)))).
  - apply (fspec_types (eq x03)); [intros t; apply gslot_GFallback|]. exact (fspec_equiv _ _ _ (fun p a a' _ => gins_u32_equiv p a a') _ _ _ _ gins_u32_np (opt_fspec x03 _ _ _ (u32_codec VLIM ltac:(lims; lia)))).
  - apply (fspec_types (fun t => x04 = t \/ x05 = t)); [intros t; apply gslot_GCounts|]. exact (gcounts_fspec).
  - apply (fspec_types (eq x06)); [intros t; apply gslot_GFlags|]. exact (fspec_equiv _ _ _ (fun p a a' _ => gins_flags_equiv p a a') _ _ _ _ gins_flags_np (opt_fspec x06 _ _ _ gflags_codec)).
  - apply (fspec_types (eq x01)); [intros t; apply gslot_GXpubs|]. exact (fspec_equiv _ _ _ (fun p a a' _ => gins_xpub_equiv p a a') _ _ _ _ gins_xpub_np (map_fspec x01 sk_xpub _ _ _ _ _ _ sk_xpub_inj xpub_codec keysource_codec xpub_nonempty)).
  - destruct feat_sp eqn:F.
    + apply (fspec_types (eq x07)); [intros t; now apply gslot_GSpEcdhShares|]. exact (sp_fspec x07 wf_secp ser_secp de_cpk 33 cpk_rt cpk_len cpk_wf).
    + apply (fspec_types (fun _ => False)); [intros t; split; [tauto|now apply gslot_GSpEcdhShares_off]|].
      apply (fspec_off _ _ _ _ _ _ (sp_fspec x07 wf_secp ser_secp de_cpk 33 cpk_rt cpk_len cpk_wf)).
  - destruct feat_sp eqn:F.
    + apply (fspec_types (eq x08)); [intros t; now apply gslot_GSpDleqProofs|]. exact (sp_fspec x08 wf_dleq ser_dleq dleq_try_from 64 dleq_rt dleq_len dleq_wf).
    + apply (fspec_types (fun _ => False)); [intros t; split; [tauto|now apply gslot_GSpDleqProofs_off]|].
      apply (fspec_off _ _ _ _ _ _ (sp_fspec x08 wf_dleq ser_dleq dleq_try_from 64 dleq_rt dleq_len dleq_wf)).
  - apply (fspec_types (eq xfc)); [intros t; apply gslot_GProprietaries|]. exact (fspec_equiv _ _ _ (fun p a a' _ => gins_prop_equiv p a a') _ _ _ _ gins_prop_np (prop_fspec (fun _ => IInvalidProprietaryKey))).
  - exact (fspec_guard (fun t => gslot t = GUnknowns /\ beq t x00 = false) _ _ _ _ (fun t => iff_refl _) _ _ _ _ (unknown_fspec (fun t => gslot t = GUnknowns /\ beq t x00 = false))).
Qed.

(** Fields whose duplicate pairs can go unnoticed. *)
Definition gspecial (f : gfield) : bool :=
  match f with GCounts => true | _ => false end.

Lemma gdup f : gspecial f = false -> fdup (fun t => gslot t = f) (gupd f).
Proof.
  destruct f; intros Hsp; try discriminate Hsp; clear Hsp; cbn [gupd gfwf gty].

  - apply (fdup_types (eq xfb)); [intros t; apply gslot_GVersion|]. exact (fdup_equiv _ _ _ (fun p a a' _ => gins_version_equiv p a a') (opt_fdup xfb _)).
  - apply (fdup_types (eq x02)); [intros t; apply gslot_GTxVersion|]. exact (fdup_equiv _ _ _ (fun p a a' _ => gins_u32_equiv p a a') (opt_fdup x02 _)).
  - apply (fdup_types (eq x03)); [intros t; apply gslot_GFallback|]. exact (fdup_equiv _ _ _ (fun p a a' _ => gins_u32_equiv p a a') (opt_fdup x03 _)).
  - apply (fdup_types (eq x06)); [intros t; apply gslot_GFlags|]. exact (fdup_equiv _ _ _ (fun p a a' _ => gins_flags_equiv p a a') (opt_fdup x06 _)).
  - apply (fdup_types (eq x01)); [intros t; apply gslot_GXpubs|]. exact (fdup_equiv _ _ _ (fun p a a' _ => gins_xpub_equiv p a a') (map_fdup x01 sk_xpub _ _ sk_xpub_inj)).
  - destruct feat_sp eqn:F.
    + apply (fdup_types (eq x07)); [intros t; now apply gslot_GSpEcdhShares|]. exact (sp_fdup x07 de_cpk 33).
    + apply (fdup_types (fun _ => False)); [intros t; split; [tauto|now apply gslot_GSpEcdhShares_off]|]. apply fdup_none.
  - destruct feat_sp eqn:F.
    + apply (fdup_types (eq x08)); [intros t; now apply gslot_GSpDleqProofs|]. exact (sp_fdup x08 dleq_try_from 64).
    + apply (fdup_types (fun _ => False)); [intros t; split; [tauto|now apply gslot_GSpDleqProofs_off]|]. apply fdup_none.
  - apply (fdup_types (eq xfc)); [intros t; apply gslot_GProprietaries|]. exact (fdup_equiv _ _ _ (fun p a a' _ => gins_prop_equiv p a a') (prop_fdup (fun _ => IInvalidProprietaryKey))).
  - exact (fdup_guard (fun t => gslot t = GUnknowns /\ beq t x00 = false) _ _ _ _ (fun t => iff_refl _) (unknown_fdup (fun t => gslot t = GUnknowns /\ beq t x00 = false))).
Qed.

Lemma gcomm f : gspecial f = false -> fcomm (fun t => gslot t = f) (gupd f) (gfwf f).
Proof.
  destruct f; intros Hsp; try discriminate Hsp; clear Hsp; cbn [gupd gfwf gty].

  - apply (fcomm_types (eq xfb)); [intros t; apply gslot_GVersion|]. exact (fcomm_equiv _ _ _ (fun p a a' _ => gins_version_equiv p a a') _ (opt_fcomm xfb _ _)).
  - apply (fcomm_types (eq x02)); [intros t; apply gslot_GTxVersion|]. exact (fcomm_equiv _ _ _ (fun p a a' _ => gins_u32_equiv p a a') _ (opt_fcomm x02 _ _)).
  - apply (fcomm_types (eq x03)); [intros t; apply gslot_GFallback|]. exact (fcomm_equiv _ _ _ (fun p a a' _ => gins_u32_equiv p a a') _ (opt_fcomm x03 _ _)).
  - apply (fcomm_types (eq x06)); [intros t; apply gslot_GFlags|]. exact (fcomm_equiv _ _ _ (fun p a a' _ => gins_flags_equiv p a a') _ (opt_fcomm x06 _ _)).
  - apply (fcomm_types (eq x01)); [intros t; apply gslot_GXpubs|]. exact (fcomm_equiv _ _ _ (fun p a a' _ => gins_xpub_equiv p a a') _ (map_fcomm x01 sk_xpub _ _ _ _ sk_xpub_inj)).
  - destruct feat_sp eqn:F.
    + apply (fcomm_types (eq x07)); [intros t; now apply gslot_GSpEcdhShares|]. exact (sp_fcomm x07 wf_secp de_cpk 33).
    + apply (fcomm_types (fun _ => False)); [intros t; split; [tauto|now apply gslot_GSpEcdhShares_off]|]. apply fcomm_none.
  - destruct feat_sp eqn:F.
    + apply (fcomm_types (eq x08)); [intros t; now apply gslot_GSpDleqProofs|]. exact (sp_fcomm x08 wf_dleq dleq_try_from 64).
    + apply (fcomm_types (fun _ => False)); [intros t; split; [tauto|now apply gslot_GSpDleqProofs_off]|]. apply fcomm_none.
  - apply (fcomm_types (eq xfc)); [intros t; apply gslot_GProprietaries|]. exact (fcomm_equiv _ _ _ (fun p a a' _ => gins_prop_equiv p a a') _ (prop_fcomm (fun _ => IInvalidProprietaryKey))).
  - exact (fcomm_guard (fun t => gslot t = GUnknowns /\ beq t x00 = false) _ _ _ _ (fun t => iff_refl _) _ (unknown_fcomm (fun t => gslot t = GUnknowns /\ beq t x00 = false))).
Qed.

Lemma graw_GProprietaries : fraw (fun t => gslot t = GProprietaries) (gupd GProprietaries) (gfpairs GProprietaries).
Proof. apply (fraw_types (eq xfc)); [intros t; apply gslot_GProprietaries|]. exact (fraw_equiv _ _ _ (fun p a a' _ => gins_prop_equiv p a a') _ (prop_fraw (fun _ => IInvalidProprietaryKey))). Qed.

Lemma graw_GUnknowns : fraw (fun t => gslot t = GUnknowns) (gupd GUnknowns) (gfpairs GUnknowns).
Proof. exact (fraw_guard (fun t => gslot t = GUnknowns /\ beq t x00 = false) _ _ _ _ (fun t => iff_refl _) _ (unknown_fraw (fun t => gslot t = GUnknowns /\ beq t x00 = false))). Qed.

Lemma gorder_nodup : NoDup gorder.
Proof. apply (NoDup_nodup_dec gfield_dec). vm_compute. reflexivity. Qed.
Lemma gorder_all f : In f gorder.
Proof. apply (in_dec_true gfield_dec). destruct f; vm_compute; reflexivity. Qed.

Lemma ginit_empty f : gget f gdec_init = gempty f.
Proof. destruct f; reflexivity. Qed.

End Facts.

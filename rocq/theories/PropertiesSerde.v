(** C105-C113: PSBTs through serde. *)
From Coq Require Import String Permutation.
From Verif Require Import Base OMap Consensus Ext ExtInstance Raw TapTree Serialize SighashType SpecSighash V2Global V2Input V2Output V2Psbt V2Roles
  V0Error V0Input V0Output V0Psbt SpecPsbt SpecPsbt0 V2WireFacts V0WireFacts SampleV2 SampleV0
  Serde SpecSerde SerdeFacts SerdeFieldFacts SerdeInstance.
Local Open Scope N_scope.

(** Used by the examples only; the theorems bind their own. *)
#[local] Existing Instance toy | 100.
#[local] Instance ex_cfg : Cfg | 100 := cfg_of false false.
#[local] Existing Instance toy_serde | 100.
(** JSON from a string slice, JSON from a reader, and a binary format. *)
Definition json_slice : fmt := Fmt true true.
Definition json_reader : fmt := Fmt true false.
Definition binary : fmt := Fmt false true.

Lemma sample_typed : typed_psbt sample.
Proof. exact (psbt_typed _ (@deserialize_wf toy toy_laws ex_cfg _ _ sample_decodes)). Qed.
Lemma sample0_typed : typed_psbt0 sample0.
Proof. exact (psbt0_typed _ (@deserialize0_wf toy toy_laws _ _ sample0_decodes)). Qed.

(** ** C105, C106: round trips *)

(** A format that lends strings, or is binary, or a PSBT without preimages. *)
Theorem C105_roundtrip : forall (X : Ext) (C : Cfg) (SX : SerdeExt) (L : SerdeLaws X SX) f p,
  typed_psbt p -> (f_hr f = true -> f_lends f = true \/ Forall no_preimages (p_inputs p)) ->
  exists q, c_de c_psbt f (c_ser c_psbt f p) = Some q /\ psbt_eq p q.
Proof. intros X C SX L f p. apply psbt_back. Qed.
Print Assumptions C105_roundtrip.

(** The condition is needed. *)
Theorem C105_roundtrip_iff : forall (X : Ext) (C : Cfg) (SX : SerdeExt) (L : SerdeLaws X SX) f p, typed_psbt p ->
  ((exists q, c_de c_psbt f (c_ser c_psbt f p) = Some q /\ psbt_eq p q)
   <-> f_hr f = false \/ f_lends f = true \/ Forall no_preimages (p_inputs p)).
Proof.
  intros X C SX L f p T. split.
  - intros (q & E & _). destruct (f_hr f) eqn:H; [|now left]. right. destruct (f_lends f) eqn:F; [now left|right].
    exact (psbt_owned f p q H F E).
  - intros H. apply psbt_back; [exact T|]. intros Hr. destruct H as [H|H]; [congruence|exact H].
Qed.
Print Assumptions C105_roundtrip_iff.

(** What was decoded from bytes survives. *)
Theorem C105_decoded : forall (X : Ext) (L : ExtLaws X) (C : Cfg) (SX : SerdeExt) (LS : SerdeLaws X SX) f bs p,
  psbt_deserialize bs = Ok p -> f_hr f = false \/ f_lends f = true ->
  exists q, c_de c_psbt f (c_ser c_psbt f p) = Some q /\ psbt_eq p q.
Proof.
  intros X L C SX LS f bs p D H. apply psbt_back; [exact (psbt_typed p (deserialize_wf bs p D))|]. intros Hr.
  destruct H; [congruence|now left].
Qed.
Print Assumptions C105_decoded.

(** A decoded PSBT with a preimage that cannot be read from a JSON reader: the values of the
    four maps are asked for as [&str] (src/serde_utils.rs:74-75). *)
Theorem C105_owned_refuted : exists bs p, @psbt_deserialize toy ex_cfg bs = Ok p /\ typed_psbt p
  /\ c_de c_psbt json_reader (c_ser c_psbt json_reader p) = None
  /\ c_de c_psbt json_slice (c_ser c_psbt json_slice p) <> None.
Proof.
  exists sample_bytes, sample. split; [exact sample_decodes|]. split; [exact sample_typed|].
  split; vm_compute; [reflexivity|discriminate].
Qed.
Print Assumptions C105_owned_refuted.

Example C105_example : typed_psbt sample
  /\ c_de c_psbt json_slice (c_ser c_psbt json_slice sample) = Some sample
  /\ c_de c_psbt binary (c_ser c_psbt binary sample) = Some sample
  /\ c_ser c_psbt binary sample <> c_ser c_psbt json_slice sample.
Proof.
  split; [exact sample_typed|]. split; [vm_compute; reflexivity|]. split; [vm_compute; reflexivity|]. vm_compute. discriminate.
Qed.

Theorem C106_roundtrip : forall (X : Ext) (SX : SerdeExt) (L : SerdeLaws X SX) f p,
  typed_psbt0 p -> (f_hr f = true -> f_lends f = true \/ Forall no_preimages0 (p0_inputs p)) ->
  exists q, c_de c_psbt0 f (c_ser c_psbt0 f p) = Some q /\ psbt0_eq p q.
Proof. intros X SX L f p. exact (psbt0_back f p). Qed.
Print Assumptions C106_roundtrip.

Theorem C106_roundtrip_iff : forall (X : Ext) (SX : SerdeExt) (L : SerdeLaws X SX) f p, typed_psbt0 p ->
  ((exists q, c_de c_psbt0 f (c_ser c_psbt0 f p) = Some q /\ psbt0_eq p q)
   <-> f_hr f = false \/ f_lends f = true \/ Forall no_preimages0 (p0_inputs p)).
Proof.
  intros X SX L f p T. split.
  - intros (q & E & _). destruct (f_hr f) eqn:H; [|now left]. right. destruct (f_lends f) eqn:F; [now left|right].
    exact (psbt0_owned f p q H F E).
  - intros H. apply psbt0_back; [exact T|]. intros Hr. destruct H as [H|H]; [congruence|exact H].
Qed.
Print Assumptions C106_roundtrip_iff.

Theorem C106_decoded : forall (X : Ext) (L : ExtLaws X) (SX : SerdeExt) (LS : SerdeLaws X SX) f bs p,
  psbt0_deserialize bs = Ok p -> f_hr f = false \/ f_lends f = true ->
  exists q, c_de c_psbt0 f (c_ser c_psbt0 f p) = Some q /\ psbt0_eq p q.
Proof.
  intros X L SX LS f bs p D H. apply psbt0_back; [exact (psbt0_typed p (deserialize0_wf bs p D))|]. intros Hr.
  destruct H; [congruence|now left].
Qed.
Print Assumptions C106_decoded.

Definition preimage0 : psbt0 :=
  set_p0_inputs (map (set_i0_sha256_preimages [(sha256 pre_a, pre_a)]) (p0_inputs sample0)) sample0.
Theorem C106_owned_refuted : exists bs p, @psbt0_deserialize toy bs = Ok p /\ typed_psbt0 p
  /\ c_de c_psbt0 json_reader (c_ser c_psbt0 json_reader p) = None
  /\ c_de c_psbt0 json_slice (c_ser c_psbt0 json_slice p) <> None.
Proof.
  exists (psbt0_serialize preimage0), preimage0.
  assert (D : @psbt0_deserialize toy (psbt0_serialize preimage0) = Ok preimage0) by (vm_compute; reflexivity).
  split; [exact D|]. split; [exact (psbt0_typed _ (@deserialize0_wf toy toy_laws _ _ D))|].
  split; vm_compute; [reflexivity|discriminate].
Qed.
Print Assumptions C106_owned_refuted.

Example C106_example : typed_psbt0 sample0
  /\ c_de c_psbt0 json_slice (c_ser c_psbt0 json_slice sample0) = Some sample0
  /\ c_de c_psbt0 binary (c_ser c_psbt0 binary sample0) = Some sample0.
Proof. split; [exact sample0_typed|]. split; vm_compute; reflexivity. Qed.

(** ** C107: JSON can express every PSBT *)

Theorem C107_json : forall (X : Ext) (C : Cfg) (SX : SerdeExt) (L : SerdeLaws X SX) f p,
  f_hr f = true -> json_doc (c_ser c_psbt f p).
Proof. intros X C SX L f p H. exact (psbt_json f H p). Qed.
Print Assumptions C107_json.

Theorem C107_json_v0 : forall (X : Ext) (SX : SerdeExt) (L : SerdeLaws X SX) f p,
  f_hr f = true -> json_doc (c_ser c_psbt0 f p).
Proof. intros X SX L f p H. exact (psbt0_json f H p). Qed.
Print Assumptions C107_json_v0.

Lemma json_members l : json_doc (SMap l) -> Forall (fun kv => (exists s, fst kv = SStr s) /\ json_doc (snd kv)) l.
Proof. intros H. now inversion H. Qed.
(** Not so for the trees that are given to binary formats. *)
Example C107_example : json_doc (c_ser c_psbt json_slice sample) /\ ~ json_doc (c_ser c_global binary (p_global sample)).
Proof.
  split; [exact (C107_json toy ex_cfg toy_serde toy_serde_laws json_slice sample eq_refl)|].
  intros H. pose (v := c_ser (c_seq_byte_values sk_key c_key) binary (g_unknowns (p_global sample))).
  assert (Hv : json_doc v).
  { cbn [c_ser c_global] in H. unfold ser_global, ser_struct in H. pose proof (json_members _ H) as F. rewrite Forall_forall in F. apply (F (SStr (str "unknowns"), v)). vm_compute. tauto. }
  assert (Hb : exists k w r, v = SMap ((SMap k, w) :: r)) by (eexists _, _, _; vm_compute; reflexivity).
  destruct Hb as (k & w & r & Hb). rewrite Hb in Hv. inversion Hv as [| | | | |l F E]. apply Forall_inv in F as [(s & Hs) _]. discriminate.
Qed.

(** ** C108: repeated keys *)

(** The last value of a key is kept, whichever way the map is written; the four ways are used by
    all maps of the crate. *)
Theorem C108_map : forall K V (sk : K -> list N) (k : codec K) (c : codec V) f v m, (forall a b, sk a = sk b -> a = b) ->
  (c_de (c_map sk k c) f v = Some m
   <-> exists es, given_as_map (reads k f) (reads c f) v es /\ keeps_last sk es m).
Proof. intros. now apply map_last. Qed.
Print Assumptions C108_map.

Theorem C108_as_seq : forall K V (sk : K -> list N) (k : codec K) (c : codec V) f v m, (forall a b, sk a = sk b -> a = b) ->
  (c_de (c_as_seq sk k c) f v = Some m
   <-> exists es, (if f_hr f then given_as_seq (reads k f) (reads c f) v es else given_as_map (reads k f) (reads c f) v es)
                  /\ keeps_last sk es m).
Proof. intros. now apply as_seq_last. Qed.
Print Assumptions C108_as_seq.

Theorem C108_seq_byte_values : forall K (sk : K -> list N) (k : codec K) f v m, (forall a b, sk a = sk b -> a = b) ->
  (c_de (c_seq_byte_values sk k) f v = Some m
   <-> exists es, (if f_hr f then given_as_seq (reads k f) reads_hex v es else given_as_map (reads k f) reads_numbers v es)
                  /\ keeps_last sk es m).
Proof. intros. now apply seq_bytes_last. Qed.
Print Assumptions C108_seq_byte_values.

Theorem C108_byte_values : forall K (sk : K -> list N) (k : codec K) f v m, (forall a b, sk a = sk b -> a = b) ->
  (c_de (c_byte_values sk k) f v = Some m
   <-> exists es, given_as_map (reads k f) (if f_hr f then fun v b => f_lends f = true /\ reads_hex v b else reads_numbers) v es
                  /\ keeps_last sk es m).
Proof. intros. now apply byte_values_last. Qed.
Print Assumptions C108_byte_values.

(** JSON with a repeated key in the unknown pairs is accepted; bytes with the same pairs are not. *)
Definition ex_unknown (b : byte) : sval :=
  SSeq [c_ser c_key json_slice (Key xf0 [x01]); SStr (to_hex [b])].
Definition ex_global (unknowns : sval) : sval := ser_struct
  [(str "version", SNum 2); (str "tx_version", SNum 2); (str "fallback_lock_time", SNull); (str "tx_modifiable_flags", SNum 0);
   (str "input_count", SNum 0); (str "output_count", SNum 0); (str "xpubs", SMap []); (str "proprietaries", SSeq []);
   (str "unknowns", unknowns)].
Definition ex_doc (unknowns : sval) : sval := ser_struct
  [(str "global", ex_global unknowns); (str "inputs", SSeq []); (str "outputs", SSeq [])].
Definition ex_dup : list pair := [pr xfb [] (le4 2); pr x02 [] (le4 2); pr x04 [] [x00]; pr x05 [] [x00]; pr xf0 [x01] [x02]; pr xf0 [x01] [x03]].
Theorem C108_rejected_refuted : exists v p q, c_de c_psbt json_slice v = Some p
  /\ v = ex_doc (SSeq [ex_unknown x02; ex_unknown x03]) /\ g_unknowns (p_global p) = [(Key xf0 [x01], [x03])]
  /\ @psbt_deserialize toy ex_cfg (sample_of (removelast ex_dup) [] []) = Ok q
  /\ is_ok (@psbt_deserialize toy ex_cfg (sample_of ex_dup [] [])) = false.
Proof.
  eexists _, _, _. split; [|split; [reflexivity|split; [|split]]]; vm_compute; reflexivity.
Qed.
Print Assumptions C108_rejected_refuted.

Example C108_example : keeps_last bkey [([x01], 1); ([x02], 2); ([x01], 3)] [([x01], 3); ([x02], 2)]
  /\ given_as_seq (reads xc_txid json_slice) (reads c_u8 json_slice) (SSeq [SSeq [SStr (repeat x01 32); SNum 7]]) [(repeat x01 32, 7)].
Proof.
  split.
  - apply (extend_iff bkey (fun a b H => bkey_inj a b H) [([x01], 1); ([x02], 2); ([x01], 3)] [([x01], 3); ([x02], 2)]).
    vm_compute. reflexivity.
  - constructor. constructor; [|constructor]. exists (SStr (repeat x01 32)), (SNum 7). split; [reflexivity|]. split; vm_compute; reflexivity.
Qed.

(** ** C109: members of structs *)

(** The order of the members is irrelevant. *)
Theorem C109_order : forall (X : Ext) (C : Cfg) (SX : SerdeExt) A ms (c : codec A), struct_type A ms c ->
  forall f l l', Permutation l l' -> c_de c f (SMap l) = c_de c f (SMap l').
Proof. intros X C SX A ms c H f l l' P. destruct (struct_lookup A ms c H) as (names & L). exact (lookup_perm _ _ _ L f l l' P). Qed.
Print Assumptions C109_order.

(** Other names are ignored. *)
Theorem C109_unknown : forall (X : Ext) (C : Cfg) (SX : SerdeExt) A ms (c : codec A), struct_type A ms c ->
  forall f l l' n v, ~ is_member ms n -> c_de c f (SMap (l ++ (SStr n, v) :: l')) = c_de c f (SMap (l ++ l')).
Proof.
  intros X C SX A ms c H f l l' n v M. destruct (struct_lookup A ms c H) as (names & L). apply (lookup_unknown _ _ _ L).
  now rewrite <- member_in.
Qed.
Print Assumptions C109_unknown.

(** A member that occurs twice is an error. *)
Theorem C109_twice : forall (X : Ext) (C : Cfg) (SX : SerdeExt) A ms (c : codec A), struct_type A ms c ->
  forall f l1 l2 l3 s k v k' v', In s (map fst ms) -> names_member ms k s -> names_member ms k' s ->
  c_de c f (SMap (l1 ++ (k, v) :: l2 ++ (k', v') :: l3)) = None.
Proof.
  intros X C SX A ms c H f l1 l2 l3 s k v k' v' Hs H1 H2. destruct (struct_lookup A ms c H) as (names & L).
  pose proof (lookup_names _ _ _ L) as En. apply (lookup_again _ _ _ f l1 l2 l3 (str s) k v k' v' L); rewrite En; now apply names_member_id.
Qed.
Print Assumptions C109_twice.

(** A member that is no option must be present. *)
Theorem C109_required : forall (X : Ext) (C : Cfg) (SX : SerdeExt) A ms (c : codec A), struct_type A ms c ->
  forall f l x s, In (s, false) ms -> c_de c f (SMap l) = Some x -> exists k v, In (k, v) l /\ names_member ms k s.
Proof.
  intros X C SX A ms c H f l x s Hs E. destruct (struct_lookup A ms c H) as (names & L).
  destruct (lookup_missing _ _ _ L f l s x Hs E) as (k & v & Hi & Hk). exists k, v. split; [exact Hi|].
  rewrite (lookup_names _ _ _ L) in Hk. apply names_member_id in Hk; [exact Hk|]. apply in_map_iff. now exists (s, false).
Qed.
Print Assumptions C109_required.

(** An option that is absent is null. *)
Theorem C109_optional : forall (X : Ext) (C : Cfg) (SX : SerdeExt) A ms (c : codec A), struct_type A ms c ->
  forall f l s, In (s, true) ms -> (forall k v, In (k, v) l -> ~ names_member ms k s) ->
  c_de c f (SMap l) = c_de c f (SMap ((SStr (str s), SNull) :: l)).
Proof.
  intros X C SX A ms c H f l s Hs Ha. destruct (struct_lookup A ms c H) as (names & L).
  apply (lookup_absent _ _ _ L f l s Hs). intros k v Hi Hk. apply (Ha k v Hi).
  rewrite (lookup_names _ _ _ L) in Hk. apply names_member_id in Hk; [exact Hk|]. apply in_map_iff. now exists (s, true).
Qed.
Print Assumptions C109_optional.

(** A sequence gives all members in order. *)
Theorem C109_positions : forall (X : Ext) (C : Cfg) (SX : SerdeExt) A ms (c : codec A), struct_type A ms c ->
  forall f l, c_de c f (SSeq l)
  = if Nat.eqb (List.length l) (List.length ms) then c_de c f (SMap (combine (map (fun m => SStr (str (fst m))) ms) l)) else None.
Proof.
  intros X C SX A ms c H f l. destruct (struct_lookup A ms c H) as (names & L). apply (lookup_positions names ms _ f l L).
  rewrite (lookup_names _ _ _ L). exact (struct_nodup A ms c H).
Qed.
Print Assumptions C109_positions.

Example C109_example :
  let k := Key xf0 [x01] in
  let t := (SStr (str "type_value"), SNum 240) in let d := (SStr (str "key"), SStr (str "01")) in
  struct_type key key_members c_key
  /\ c_de c_key json_slice (SMap [t; d]) = Some k /\ c_de c_key json_slice (SMap [d; t]) = Some k
  /\ c_de c_key json_slice (SMap [d; (SStr (str "other"), SNull); t]) = Some k
  /\ c_de c_key json_slice (SMap [d; (SNum 0, SNum 240)]) = Some k
  /\ c_de c_key json_slice (SMap [d; t; d]) = None /\ c_de c_key json_slice (SMap [t]) = None
  /\ c_de c_key json_slice (SSeq [SNum 240; SStr (str "01")]) = Some k.
Proof. cbv zeta. split; [constructor|]. repeat split; vm_compute; reflexivity. Qed.

(** ** C110: builds with and without the feature silent-payments *)

(** Text of a build without the feature is not read by a build with it. *)
Theorem C110_added : forall (X : Ext) (SX : SerdeExt) (C C' : Cfg) f p,
  @feat_sp C = false -> @feat_sp C' = true -> c_de (c_psbt (C := C')) f (c_ser (c_psbt (C := C)) f p) = None.
Proof. intros X SX C C' f p H H'. exact (read_without C C' H H' f p). Qed.
Print Assumptions C110_added.

(** Text of a build with the feature is read by a build without it; the fields are lost. *)
Theorem C110_removed : forall (X : Ext) (SX : SerdeExt) (L : SerdeLaws X SX) (C C' : Cfg) f p,
  @feat_sp C = true -> @feat_sp C' = false -> typed_psbt (C := C) p ->
  (f_hr f = true -> f_lends f = true \/ Forall no_preimages (p_inputs p)) ->
  exists q, c_de (c_psbt (C := C')) f (c_ser (c_psbt (C := C)) f p) = Some q /\ psbt_eq (drop_sp p) q.
Proof. intros X SX L C C' f p H H' T Hp. exact (psbt_dropped C C' H H' f p T Hp). Qed.
Print Assumptions C110_removed.

(** Bytes keep them: they become unknown pairs there. *)
Definition sp_psbt : psbt :=
  Psbt (set_g_sp_dleq_proofs [(pk_a, repeat x07 64)] (set_g_sp_ecdh_shares [(pk_a, pk_b)] (Global 2 2 None 0 0 0 [] [] [] [] []))) [] [].
Theorem C110_kept_refuted : exists p q, @typed_psbt toy (cfg_of true false) p /\ g_sp_ecdh_shares (p_global p) <> []
  /\ c_de (c_psbt (C := cfg_of false false)) json_slice (c_ser (c_psbt (C := cfg_of true false)) json_slice p) = Some q
  /\ q = empty_psbt
  /\ exists r, @psbt_deserialize toy (cfg_of false false) (@psbt_serialize toy (cfg_of true false) p) = Ok r
       /\ map (fun kv => (k_type (fst kv), k_data (fst kv), snd kv)) (g_unknowns (p_global r)) = [(x07, pk_a, pk_b); (x08, pk_a, repeat x07 64)].
Proof.
  exists sp_psbt, empty_psbt. split.
  - apply psbt_typed. apply (@deserialize_wf toy toy_laws (cfg_of true false) (@psbt_serialize toy (cfg_of true false) sp_psbt)). vm_compute. reflexivity.
  - split; [discriminate|]. split; [vm_compute; reflexivity|]. split; [reflexivity|]. eexists. split; vm_compute; reflexivity.
Qed.
Print Assumptions C110_kept_refuted.

Example C110_example : c_de (c_psbt (C := cfg_of true false)) json_slice (c_ser (c_psbt (C := cfg_of false false)) json_slice sample) = None
  /\ c_de (c_psbt (C := cfg_of true false)) json_slice (c_ser (c_psbt (C := cfg_of true false)) json_slice sp_psbt) = Some sp_psbt.
Proof. split; vm_compute; reflexivity. Qed.

(** ** C111: what is checked *)

(** Exactly the values of the types are read. *)
Theorem C111_typed : forall (X : Ext) (C : Cfg) (SX : SerdeExt) (L : SerdeLaws X SX) f v p,
  c_de c_psbt f v = Some p -> typed_psbt p.
Proof. intros X C SX L f v p. apply psbt_sound. Qed.
Print Assumptions C111_typed.

Theorem C111_all : forall (X : Ext) (C : Cfg) (SX : SerdeExt) (L : SerdeLaws X SX) p,
  typed_psbt p -> forall lends, exists v q, c_de c_psbt (Fmt false lends) v = Some q /\ psbt_eq p q.
Proof.
  intros X C SX L p T lends. destruct (psbt_back (Fmt false lends) p T) as (q & E & Q); [discriminate|]. eexists _, q. split; [exact E|exact Q].
Qed.
Print Assumptions C111_all.

Theorem C111_typed_v0 : forall (X : Ext) (SX : SerdeExt) (L : SerdeLaws X SX) f v p,
  c_de c_psbt0 f v = Some p -> typed_psbt0 p.
Proof. intros X SX L f v p. apply psbt0_sound. Qed.
Print Assumptions C111_typed_v0.

Theorem C111_all_v0 : forall (X : Ext) (SX : SerdeExt) (L : SerdeLaws X SX) p,
  typed_psbt0 p -> forall lends, exists v q, c_de c_psbt0 (Fmt false lends) v = Some q /\ psbt0_eq p q.
Proof.
  intros X SX L p T lends. destruct (psbt0_back (Fmt false lends) p T) as (q & E & Q); [discriminate|]. eexists _, q. split; [exact E|exact Q].
Qed.
Print Assumptions C111_all_v0.

(** The version, the counts and the hashes of preimages are not checked, so PSBTs are read that
    no bytes decode to. *)
Definition unchecked : psbt :=
  Psbt (Global 7 2 None 0 5 0 [] [] [] [] []) (map (set_in_sha256_preimages [(repeat x00 32, pre_a)]) (p_inputs sample)) [].
Theorem C111_checked_refuted : exists v p, c_de c_psbt json_slice v = Some p
  /\ g_version (p_global p) = 7 /\ g_input_count (p_global p) = 5 /\ List.length (p_inputs p) = 2%nat
  /\ (exists i, In i (p_inputs p) /\ In (repeat x00 32, pre_a) (in_sha256_preimages i) /\ @sha256 toy pre_a <> repeat x00 32)
  /\ forall bs, @psbt_deserialize toy ex_cfg bs <> Ok p.
Proof.
  exists (c_ser c_psbt json_slice unchecked), unchecked. split; [vm_compute; reflexivity|]. split; [reflexivity|]. split; [reflexivity|].
  split; [vm_compute; reflexivity|]. split.
  - exists (set_in_sha256_preimages [(repeat x00 32, pre_a)] (hd (Input [] 0 None None None None None [] None None None [] None None [] [] [] [] None [] [] [] None None [] [] [] []) (p_inputs sample))).
    split; [vm_compute; tauto|]. split; [vm_compute; tauto|]. vm_compute. discriminate.
  - intros bs D. apply (@deserialize_wf toy toy_laws ex_cfg) in D. pose proof (wg_version _ (wp_global _ D)) as V. vm_compute in V. discriminate.
Qed.
Print Assumptions C111_checked_refuted.

(** A version 0 PSBT whose transaction is signed and whose maps do not match it; functions that
    do not panic for decoded PSBTs do. *)
Definition unchecked0 : psbt0 :=
  Psbt0 (Tx 2 0 [TxIn (repeat x01 32) 0 [x51] 0 []] []) 9 [] [] [] [] [].
Theorem C111_checked_v0_refuted : exists v p, c_de c_psbt0 json_slice v = Some p
  /\ p0_version p = 9 /\ ~ unsigned (p0_unsigned_tx p)
  /\ List.length (p0_inputs p) <> List.length (tx_input (p0_unsigned_tx p))
  /\ (forall bs, @psbt0_deserialize toy bs <> Ok p) /\ psbt0_fee p = Panic.
Proof.
  exists (c_ser c_psbt0 json_slice unchecked0), unchecked0. split; [vm_compute; reflexivity|]. split; [reflexivity|]. split.
  - intros H. apply Forall_inv in H as [H _]. discriminate.
  - split; [discriminate|]. split; [|vm_compute; reflexivity].
    intros bs D. apply (@deserialize0_wf toy toy_laws) in D. pose proof (wp0_version _ D) as V. vm_compute in V. discriminate.
Qed.
Print Assumptions C111_checked_v0_refuted.

Example C111_example : typed_psbt unchecked /\ typed_psbt0 unchecked0
  /\ c_de c_psbt json_slice (SMap [(SStr (str "global"), SNull)]) = None.
Proof.
  split; [apply (C111_typed toy ex_cfg toy_serde toy_serde_laws json_slice (c_ser c_psbt json_slice unchecked)); vm_compute; reflexivity|].
  split; [apply (C111_typed_v0 toy toy_serde toy_serde_laws json_slice (c_ser c_psbt0 json_slice unchecked0)); vm_compute; reflexivity|].
  vm_compute. reflexivity.
Qed.

(** ** C112: role types *)

(** A role that was written by a format and read again is as it was. *)
Theorem C112_kept : forall (X : Ext) (C : Cfg) (SX : SerdeExt) (L : SerdeLaws X SX) f p q,
  typed_psbt p -> c_de c_role f (c_ser c_role f p) = Some q -> psbt_eq p q
  /\ (signer_new p = Ok p -> signer_new q = Ok q) /\ (updater_new p = Ok p -> updater_new q = Ok q).
Proof.
  intros X C SX L f p q T E.
  assert (Q : psbt_eq p q).
  { destruct (psbt_back f p T) as (q' & E' & Q).
    - intros H. destruct (f_lends f) eqn:F; [now left|right]. exact (psbt_owned f p q H F E).
    - unfold c_role in E. cbn [c_de c_ser c_psbt] in E. rewrite E' in E. injection E as <-. exact Q. }
  split; [exact Q|]. destruct Q as (Qg & Qi & _).
  assert (D : determine_lock_time q = determine_lock_time p) by (unfold determine_lock_time; now rewrite <- Qg, <- Qi).
  unfold signer_new, updater_new. rewrite D. destruct (determine_lock_time p); cbn; split; intros; try discriminate; reflexivity.
Qed.
Print Assumptions C112_kept.

(** The kind of a constructor is not written, so any other kind can be read. *)
Theorem C112_kind_lost : forall (X : Ext) (C : Cfg) (SX : SerdeExt) k k' f p,
  c_ser (c_constructor k) f p = c_ser (c_constructor k') f p
  /\ c_de (c_constructor k') f (c_ser (c_constructor k) f p) = c_de c_psbt f (c_ser c_psbt f p).
Proof. intros. split; reflexivity. Qed.
Print Assumptions C112_kind_lost.

(** A constructor for outputs only becomes one that takes inputs, which [new] refuses. *)
Definition outputs_only : psbt := creator_constructor KOutputsOnly creator_new.
Theorem C112_constructor_refuted : exists p e, constructor_new KOutputsOnly p = Ok p /\ constructor_new KModifiable p = Err e
  /\ c_de (c_constructor KModifiable) json_slice (c_ser (c_constructor KOutputsOnly) json_slice p) = Some p.
Proof. exists outputs_only. eexists. split; [vm_compute; reflexivity|]. split; vm_compute; reflexivity. Qed.
Print Assumptions C112_constructor_refuted.

(** A signer, updater or extractor can be read whose lock time cannot be determined; the methods
    that rely on it panic. *)
Definition conflicting : psbt :=
  Psbt (Global 2 2 None 0 2 0 [] [] [] [] [])
    (match p_inputs sample with
     | [a; b] => [set_in_min_time (Some 500000000) (set_in_min_height None a); set_in_min_height (Some 7) (set_in_min_time None b)]
     | l => l end) [].
Theorem C112_checked_refuted : exists v p, c_de c_role json_slice v = Some p
  /\ (forall q, signer_new p <> Ok q) /\ (forall q, updater_new p <> Ok q) /\ (forall q, extractor_new p <> Ok q)
  /\ signer_unsigned_tx (E := Empty_set) p = Panic /\ updater_id (E := Empty_set) p = Panic /\ extractor_id (E := Empty_set) p = Panic.
Proof.
  exists (c_ser c_role json_slice conflicting), conflicting. split; [vm_compute; reflexivity|].
  split; [intros q; vm_compute; discriminate|]. split; [intros q; vm_compute; discriminate|]. split; [intros q; vm_compute; discriminate|].
  split; [vm_compute; reflexivity|]. split; vm_compute; reflexivity.
Qed.
Print Assumptions C112_checked_refuted.

Example C112_example : signer_new sample = Ok sample /\ c_de c_role binary (c_ser c_role binary sample) = Some sample
  /\ c_de (c_constructor KModifiable) binary (c_ser (c_constructor KModifiable) binary sample) = Some sample.
Proof. split; [vm_compute; reflexivity|]. split; vm_compute; reflexivity. Qed.

(** ** C113: DLEQ proofs as text *)

Theorem C113_read : forall f v b, c_de c_dleq f v = Some b <->
  List.length b = 64%nat /\ if f_hr f then exists s, v = SStr s /\ hex_text any_digit s b else v = SBytes b.
Proof. exact dleq_read. Qed.
Print Assumptions C113_read.

Theorem C113_written : forall f b,
  if f_hr f then exists s, c_ser c_dleq f b = SStr s /\ hex_text lower_digit s b else c_ser c_dleq f b = SBytes b.
Proof. intros f b. unfold c_dleq. cbn [c_ser]. destruct (f_hr f); [|reflexivity]. exists (to_hex b). split; [reflexivity|apply to_hex_text]. Qed.
Print Assumptions C113_written.

(** Hex of bytes in all other places. *)
Theorem C113_hex : forall f v b, f_hr f = true -> (c_de c_hex f v = Some b <-> reads_hex v b).
Proof. intros f v b. apply hex_read. Qed.
Print Assumptions C113_hex.

Theorem C113_hex_written : forall f b, f_hr f = true -> exists s, c_ser c_hex f b = SStr s /\ hex_text lower_digit s b.
Proof. intros f b H. unfold c_hex. cbn [c_ser]. rewrite H. exists (to_hex b). split; [reflexivity|apply to_hex_text]. Qed.
Print Assumptions C113_hex_written.

Example C113_example : c_ser c_hex json_slice [xab; x09] = SStr (str "ab09")
  /\ c_de c_hex json_slice (SStr (str "Ab09")) = Some [xab; x09] /\ c_de c_hex json_slice (SStr (str "ab0")) = None
  /\ c_de c_dleq json_slice (SStr (str "ab09")) = None
  /\ c_de c_dleq json_slice (c_ser c_dleq json_slice (repeat xab 64)) = Some (repeat xab 64).
Proof. repeat split; vm_compute; reflexivity. Qed.

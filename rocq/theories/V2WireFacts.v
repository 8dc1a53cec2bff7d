(** Whole v2 PSBTs on the wire. *)
From Coq Require Import Permutation.
From Verif Require Import Base OMap Consensus ConsensusFacts Ext Raw RawFacts TapTree TapTreeFacts
  Serialize SerializeFacts MapCodec MapFacts V2Global V2Input V2Output V2Psbt
  V2OutputFacts V2InputFacts V2GlobalFacts SpecCodec SpecCodecFacts SpecPsbt V2PsbtFacts V2CodecFacts.
Local Open Scope N_scope.

Lemma F2_length {A B} (R : A -> B -> Prop) l l' : Forall2 R l l' -> length l = length l'.
Proof. induction 1; cbn; auto. Qed.

Section Facts.
Context `{X : Ext} {L : ExtLaws X} `{C : Cfg}.

(** ** The grammar *)

Lemma head_split bs :
  bytes_eqb (firstn 4 bs) MAGIC_BYTES = true -> bytes_eqb (firstn 1 (skipn 4 bs)) [PSBT_SEPARATOR] = true ->
  bs = HEAD ++ skipn 5 bs.
Proof.
  intros H1 H2. apply bytes_eqb_eq in H1, H2.
  rewrite <- (firstn_skipn 4 bs) at 1. rewrite H1. rewrite <- (firstn_skipn 1 (skipn 4 bs)). rewrite H2.
  rewrite skipn_twice. reflexivity.
Qed.

Lemma deserialize_head d : psbt_deserialize (HEAD ++ d) =
  ('(g, d1) <- map_err DecodeGlobal (global_decode d) ;;
   _ <- panic_unless (g_input_count g * size_input <=? ISIZE_MAX) ;;
   '(inputs, d2) <- map_err DecodeInput
      (dec_maps input_decode (IDDeserPair SNoMorePairs) (S (length d1)) (g_input_count g) d1) ;;
   _ <- panic_unless (g_output_count g * size_output <=? ISIZE_MAX) ;;
   '(outputs, _) <- map_err DecodeOutput
      (dec_maps output_decode (ODDeserPair SNoMorePairs) (S (length d2)) (g_output_count g) d2) ;;
   Ok (Psbt g inputs outputs)).
Proof. reflexivity. Qed.

Lemma deserialize_gate bs p : psbt_deserialize bs = Ok p -> bs = HEAD ++ skipn 5 bs.
Proof.
  unfold psbt_deserialize. intros H.
  destruct (bytes_eqb (firstn 4 bs) MAGIC_BYTES) eqn:E1; [|discriminate].
  destruct (bytes_eqb (firstn 1 (skipn 4 bs)) [PSBT_SEPARATOR]) eqn:E2; [|discriminate].
  now apply head_split.
Qed.

Definition input_maps := dec_maps_iff input_decode ser_pairs input_acc (IDDeserPair SNoMorePairs) input_decode_iff ser_pairs_nonempty.
Definition output_maps := dec_maps_iff output_decode ser_pairs output_acc (ODDeserPair SNoMorePairs) output_decode_iff ser_pairs_nonempty.

(** The lists of pairs of an accepted byte string. *)
Definition accepted (p : psbt) (lg : list pair) (lis los : list (list pair)) : Prop :=
  global_acc lg (p_global p) /\ Forall2 input_acc lis (p_inputs p) /\ Forall2 output_acc los (p_outputs p) /\
  g_input_count (p_global p) = blen (p_inputs p) /\ g_output_count (p_global p) = blen (p_outputs p) /\
  blen (p_inputs p) * size_input <= ISIZE_MAX /\ blen (p_outputs p) * size_output <= ISIZE_MAX.

Lemma deserialize_iff bs p :
  psbt_deserialize bs = Ok p <->
  exists lg lis los r, bs = HEAD ++ ser_pairs lg ++ concat (map ser_pairs lis) ++ concat (map ser_pairs los) ++ r
    /\ accepted p lg lis los.
Proof.
  split.
  - intros H. pose proof (deserialize_gate _ _ H) as E. rewrite E in H. rewrite deserialize_head in H.
    apply bind_ok in H as ([g d1] & H1 & H). apply map_err_ok in H1.
    destruct (g_input_count g * size_input <=? ISIZE_MAX) eqn:C1; [|discriminate]. cbn [panic_unless bind] in H.
    apply bind_ok in H as ([is d2] & H2 & H). apply map_err_ok in H2.
    destruct (g_output_count g * size_output <=? ISIZE_MAX) eqn:C2; [|discriminate]. cbn [panic_unless bind] in H.
    apply bind_ok in H as ([os d3] & H3 & H). apply map_err_ok in H3. inj H.
    apply global_decode_iff in H1 as (lg & E1 & A1).
    apply input_maps in H2 as (lis & -> & A2 & N2). apply output_maps in H3 as (los & -> & A3 & N3).
    exists lg, lis, los, d3. split.
    + now rewrite E, E1.
    + unfold accepted. cbn [p_global p_inputs p_outputs]. rewrite <- N2, <- N3.
      split; auto. split; auto. split; auto. repeat split; lia.
  - intros (lg & lis & los & r & -> & A1 & A2 & A3 & N1 & N2 & F1 & F2). rewrite deserialize_head.
    assert (D1 : global_decode (ser_pairs lg ++ concat (map ser_pairs lis) ++ concat (map ser_pairs los) ++ r)
                 = Ok (p_global p, concat (map ser_pairs lis) ++ concat (map ser_pairs los) ++ r)) by (apply global_decode_iff; eauto).
    rewrite D1. cbn [map_err bind]. rewrite N1, N2.
    replace (blen (p_inputs p) * size_input <=? ISIZE_MAX) with true by lia.
    replace (blen (p_outputs p) * size_output <=? ISIZE_MAX) with true by lia. cbn [panic_unless bind].
    match goal with |- context [dec_maps input_decode ?o ?f ?n ?d] =>
      assert (D2 : dec_maps input_decode o f n d = Ok (p_inputs p, concat (map ser_pairs los) ++ r)) by (apply input_maps; eauto) end.
    rewrite D2. cbn [map_err bind].
    match goal with |- context [dec_maps output_decode ?o ?f ?n ?d] =>
      assert (D3 : dec_maps output_decode o f n d = Ok (p_outputs p, r)) by (apply output_maps; eauto) end.
    rewrite D3. cbn [map_err bind]. now destruct p.
Qed.

Lemma accepted_wf p lg lis los : accepted p lg lis los -> wf_psbt p.
Proof.
  intros (A1 & A2 & A3 & N1 & N2 & F1 & F2). constructor; auto.
  - now apply global_acc_wf in A1.
  - clear -A2 L. induction A2 as [|l i ls is H1 H2 IH]; constructor; auto. now apply input_acc_wf in H1.
  - clear -A3 L. induction A3 as [|l i ls is H1 H2 IH]; constructor; auto. now apply output_acc_wf in H1.
Qed.
Lemma deserialize_wf bs p : psbt_deserialize bs = Ok p -> wf_psbt p.
Proof. intros H. apply deserialize_iff in H as (lg & lis & los & r & _ & A). now apply accepted_wf in A. Qed.

Lemma accepted_pairs p lg lis los : accepted p lg lis los ->
  Forall wf_pair lg /\ Forall (Forall wf_pair) lis /\ Forall (Forall wf_pair) los /\
  length lis = length (p_inputs p) /\ length los = length (p_outputs p).
Proof.
  intros ((W1 & _) & A2 & A3 & _). split; auto. repeat split.
  - clear -A2. induction A2 as [|l i ls is [H1 _] H2 IH]; constructor; auto.
  - clear -A3. induction A3 as [|l i ls is [H1 _] H2 IH]; constructor; auto.
  - now apply F2_length in A2.
  - now apply F2_length in A3.
Qed.

Lemma deserialize_maps bs p : psbt_deserialize bs = Ok p -> exists lg lis los, maps_of bs p lg lis los.
Proof.
  intros H. apply deserialize_iff in H as (lg & lis & los & r & E & A).
  destruct (accepted_pairs _ _ _ _ A) as (W1 & W2 & W3 & N1 & N2).
  exists lg, lis, los. eexists _, r. split; [|split; [|auto]].
  2:{ now apply psbt_wire_intro. }
  rewrite E. now rewrite <- !app_assoc.
Qed.

(** Any reading of the bytes as maps is the decoder's. *)
Lemma deserialize_unique bs p lg lis los :
  psbt_deserialize bs = Ok p -> maps_of bs p lg lis los -> accepted p lg lis los.
Proof.
  intros H (w & t & E & W & N1 & N2). apply deserialize_iff in H as (lg' & lis' & los' & r & E' & A).
  destruct (accepted_pairs _ _ _ _ A) as (W1 & W2 & W3 & N1' & N2').
  apply psbt_wire_ser in W as (-> & Q1 & Q2 & Q3). rewrite E in E'. rewrite <- !app_assoc in E'.
  apply app_inv_head in E'. apply ser_pairs_unique in E' as [-> E']; auto.
  apply sers_unique in E' as [-> E']; auto; [|congruence].
  apply sers_unique in E' as [-> E']; auto; [congruence].
Qed.

(** Exactly one reading. *)
Lemma maps_unique bs p : psbt_deserialize bs = Ok p ->
  exists lg lis los, maps_of bs p lg lis los
    /\ forall lg' lis' los', maps_of bs p lg' lis' los' -> lg' = lg /\ lis' = lis /\ los' = los.
Proof.
  intros H. destruct (deserialize_maps _ _ H) as (lg & lis & los & M). exists lg, lis, los. split; auto.
  intros lg' lis' los' M'. pose proof (deserialize_unique _ _ _ _ _ H M) as A.
  destruct (accepted_pairs _ _ _ _ A) as (W1 & W2 & W3 & N1 & N2).
  destruct M as (w & t & E & W & _), M' as (w' & t' & E' & W' & N1' & N2').
  apply psbt_wire_ser in W as (-> & _). apply psbt_wire_ser in W' as (-> & Q1 & Q2 & Q3).
  rewrite E in E'. rewrite <- !app_assoc in E'. apply app_inv_head in E'. symmetry in E'.
  apply ser_pairs_unique in E' as [-> E']; auto.
  apply sers_unique in E' as [-> E']; auto; [|congruence].
  apply sers_unique in E' as [-> _]; auto. congruence.
Qed.

(** ** Round trip *)
Lemma serialize_wire p : wf_psbt p ->
  psbt_serialize p = HEAD ++ ser_pairs (global_pairs (p_global p))
    ++ concat (map ser_pairs (map input_pairs (p_inputs p)))
    ++ concat (map ser_pairs (map output_pairs (p_outputs p))).
Proof. intros _. unfold psbt_serialize. rewrite !map_map. reflexivity. Qed.

Lemma serialize_pairs_wf p : wf_psbt p ->
  Forall wf_pair (global_pairs (p_global p)) /\ Forall (Forall wf_pair) (map input_pairs (p_inputs p)) /\
  Forall (Forall wf_pair) (map output_pairs (p_outputs p)).
Proof.
  intros H. split; [apply global_pairs_wf, H|]. split.
  - pose proof (wp_inputs _ H) as Q. induction Q; constructor; auto. now apply input_pairs_wf.
  - pose proof (wp_outputs _ H) as Q. induction Q; constructor; auto. now apply output_pairs_wf.
Qed.

Lemma serialize_maps p : wf_psbt p ->
  maps_of (psbt_serialize p) p (global_pairs (p_global p)) (map input_pairs (p_inputs p)) (map output_pairs (p_outputs p)).
Proof.
  intros H. exists (psbt_serialize p), []. rewrite app_nil_r. split; auto. split.
  - rewrite serialize_wire by assumption. now apply psbt_wire_intro; apply serialize_pairs_wf.
  - now rewrite !map_length.
Qed.

Lemma inputs_rt l : Forall wf_input l -> Forall2 input_acc (map input_pairs l) l.
Proof. induction 1; cbn; constructor; auto. now apply input_rt. Qed.
Lemma outputs_rt l : Forall wf_output l -> exists l', Forall2 output_acc (map output_pairs l) l' /\
  Forall2 (fun o o' => forall f, oget f o' = onorm f (oget f o)) l l'.
Proof.
  intros H. induction H as [|o l H1 H2 (l' & I1 & I2)]; [exists []; split; constructor|].
  destruct (output_rt o H1) as (o' & J1 & J2). exists (o' :: l'). cbn. auto.
Qed.

Lemma psbt_roundtrip_norm p : wf_psbt p ->
  exists os', psbt_deserialize (psbt_serialize p) = Ok (set_p_outputs os' p)
    /\ accepted (set_p_outputs os' p) (global_pairs (p_global p)) (map input_pairs (p_inputs p)) (map output_pairs (p_outputs p))
    /\ Forall2 (fun o o' => forall f, oget f o' = onorm f (oget f o)) (p_outputs p) os'.
Proof.
  intros H. destruct (outputs_rt _ (wp_outputs _ H)) as (os' & O1 & O2).
  assert (A : accepted (set_p_outputs os' p) (global_pairs (p_global p)) (map input_pairs (p_inputs p)) (map output_pairs (p_outputs p))).
  { assert (Hlen : blen os' = blen (p_outputs p)) by (unfold blen; now rewrite (F2_length _ _ _ O2)).
    unfold accepted, set_p_outputs. cbn [p_global p_inputs p_outputs]. rewrite Hlen.
    split; [apply global_rt, H|]. split; [apply inputs_rt, H|]. split; [exact O1|].
    split; [apply H|]. split; [apply H|]. split; apply H. }
  exists os'. split; auto. apply deserialize_iff.
  exists (global_pairs (p_global p)), (map input_pairs (p_inputs p)), (map output_pairs (p_outputs p)), [].
  split; auto. rewrite serialize_wire, app_nil_r by assumption. reflexivity.
Qed.

Lemma psbt_roundtrip p : wf_psbt p -> exists p', psbt_deserialize (psbt_serialize p) = Ok p' /\ psbt_eq p p'.
Proof.
  intros H. destruct (psbt_roundtrip_norm p H) as (os' & H1 & _ & H2). exists (set_p_outputs os' p). split; auto.
  unfold psbt_eq, set_p_outputs. cbn [p_global p_inputs p_outputs]. split; auto. split; auto.
  pose proof (wp_outputs _ H) as Q. clear -H2 Q L. induction H2 as [|o o' l l' E _ IH]; constructor.
  - apply Forall_cons_iff in Q as [Q _]. now apply onorm_eq.
  - apply IH. now apply Forall_cons_iff in Q.
Qed.

Lemma psbt_roundtrip_exact p : wf_psbt p -> no_tap_ties p -> psbt_deserialize (psbt_serialize p) = Ok p.
Proof.
  intros H Ht. destruct (psbt_roundtrip_norm p H) as (os' & H1 & _ & H2). rewrite H1. f_equal.
  assert (os' = p_outputs p); [|subst; now destruct p].
  unfold no_tap_ties in Ht. clear H1 H. induction H2 as [|o o' l l' E _ IH]; auto.
  apply Forall_cons_iff in Ht as [Ht1 Ht2]. f_equal; auto. now apply onorm_exact.
Qed.

(** ** Local behaviour *)
Lemma deserialize_extend bs p t : psbt_deserialize bs = Ok p -> psbt_deserialize (bs ++ t) = Ok p.
Proof.
  intros H. apply deserialize_iff in H as (lg & lis & los & r & -> & A). apply deserialize_iff.
  exists lg, lis, los, (r ++ t). split; auto. now rewrite <- !app_assoc.
Qed.

Lemma deserialize_truncated p pre suf q : wf_psbt p -> psbt_serialize p = pre ++ suf -> suf <> [] ->
  psbt_deserialize pre <> Ok q.
Proof.
  intros H E Hs D. apply Hs. clear Hs.
  destruct (psbt_roundtrip_norm p H) as (os' & D2 & A2 & _).
  pose proof (deserialize_extend _ _ suf D) as D3. rewrite <- E in D3.
  assert (Hq : q = set_p_outputs os' p) by congruence. subst q.
  destruct (accepted_pairs _ _ _ _ A2) as (W1 & W2 & W3 & N1 & N2).
  apply deserialize_iff in D as (lg & lis & los & r & -> & A).
  rewrite serialize_wire in E by assumption. rewrite <- !app_assoc in E. apply app_inv_head in E.
  destruct (accepted_pairs _ _ _ _ A) as (V1 & V2 & V3 & M1 & M2).
  apply ser_pairs_unique in E as [_ E]; auto; [|now apply ser_pairs_spec].
  assert (Q : forall ls, Forall (Forall wf_pair) ls -> Forall (fun l => map_wire l (ser_pairs l)) ls).
  { intros ls Hl. eapply Forall_impl; [|exact Hl]. intros l. apply ser_pairs_spec. }
  apply sers_unique in E as [_ E]; auto; [|congruence].
  rewrite <- (app_nil_r (concat (map ser_pairs (map output_pairs _)))) in E.
  apply sers_unique in E as [_ E]; auto; [|congruence].
  symmetry in E. now apply app_eq_nil in E as [_ E].
Qed.

(** ** Magic *)
Lemma firstn_app_exact {A} (a t : list A) : firstn (length a) (a ++ t) = a.
Proof. rewrite firstn_app, Nat.sub_diag, firstn_all. cbn. apply app_nil_r. Qed.

Lemma magic_gate bs :
  psbt_deserialize bs = Err InvalidMagic <-> (forall t, bs <> [x70; x73; x62; x74] ++ t).
Proof.
  destruct (bytes_eqb (firstn 4 bs) MAGIC_BYTES) eqn:E.
  - split.
    + intros H. exfalso. unfold psbt_deserialize in H. rewrite E in H. cbn [negb fail_if bind] in H.
      destruct (bytes_eqb (firstn 1 (skipn 4 bs)) [PSBT_SEPARATOR]); [|discriminate].
      cbn [negb fail_if bind] in H.
      destruct (global_decode _) as [[g d1]| |]; cbn [map_err bind] in H; try discriminate.
      destruct (_ <=? _); cbn [panic_unless bind] in H; try discriminate.
      destruct (dec_maps _ _ _ _ _) as [[is d2]| |]; cbn [map_err bind] in H; try discriminate.
      destruct (_ <=? _); cbn [panic_unless bind] in H; try discriminate.
      destruct (dec_maps _ _ _ _ _) as [[os d3]| |]; cbn [map_err bind] in H; discriminate.
    + intros H. exfalso. apply bytes_eqb_eq in E. apply (H (skipn 4 bs)).
      rewrite <- (firstn_skipn 4 bs) at 1. rewrite E. reflexivity.
  - split.
    + intros _ t ->. discriminate E.
    + intros _. unfold psbt_deserialize. rewrite E. reflexivity.
Qed.

Lemma separator_gate bs :
  psbt_deserialize bs = Err InvalidSeparator <->
  (exists t, bs = [x70; x73; x62; x74] ++ t) /\ (forall t, bs <> [x70; x73; x62; x74; xff] ++ t).
Proof.
  destruct (bytes_eqb (firstn 4 bs) MAGIC_BYTES) eqn:E.
  - assert (Em : bs = [x70; x73; x62; x74] ++ skipn 4 bs).
    { apply bytes_eqb_eq in E. rewrite <- (firstn_skipn 4 bs) at 1. now rewrite E. }
    destruct (bytes_eqb (firstn 1 (skipn 4 bs)) [PSBT_SEPARATOR]) eqn:E2.
    + split.
      * intros H. exfalso. unfold psbt_deserialize in H. rewrite E, E2 in H. cbn [negb fail_if bind] in H.
        destruct (global_decode _) as [[g d1]| |]; cbn [map_err bind] in H; try discriminate.
        destruct (_ <=? _); cbn [panic_unless bind] in H; try discriminate.
        destruct (dec_maps _ _ _ _ _) as [[is d2]| |]; cbn [map_err bind] in H; try discriminate.
        destruct (_ <=? _); cbn [panic_unless bind] in H; try discriminate.
        destruct (dec_maps _ _ _ _ _) as [[os d3]| |]; cbn [map_err bind] in H; discriminate.
      * intros [_ H]. exfalso. apply (H (skipn 5 bs)). now apply head_split.
    + split.
      * intros _. split; [eauto|]. intros t ->. discriminate E2.
      * intros _. unfold psbt_deserialize. now rewrite E, E2.
  - split.
    + unfold psbt_deserialize. rewrite E. discriminate.
    + intros [[t ->] _]. discriminate E.
Qed.

(** ** Panics *)
Lemma deserialize_panic bs : psbt_deserialize bs = Panic ->
  exists lg g t, bs = HEAD ++ ser_pairs lg ++ t /\ global_acc lg g /\
    (ISIZE_MAX < g_input_count g * size_input \/ ISIZE_MAX < g_output_count g * size_output).
Proof.
  intros H. unfold psbt_deserialize in H.
  destruct (bytes_eqb (firstn 4 bs) MAGIC_BYTES) eqn:E1; [|discriminate].
  destruct (bytes_eqb (firstn 1 (skipn 4 bs)) [PSBT_SEPARATOR]) eqn:E2; [|discriminate].
  cbn [negb fail_if bind] in H. pose proof (head_split _ E1 E2) as E.
  pose proof (global_decode_np (skipn 5 bs)) as Hn.
  destruct (global_decode (skipn 5 bs)) as [[g d1]| |] eqn:D1; cbn [map_err bind] in H; try discriminate; [|congruence].
  apply global_decode_iff in D1 as (lg & Eg & A). rewrite Eg in E. exists lg, g, d1. split; auto. split; auto.
  destruct (g_input_count g * size_input <=? ISIZE_MAX) eqn:C1; [|left; lia]. cbn [panic_unless bind] in H.
  pose proof (dec_maps_np input_decode (IDDeserPair SNoMorePairs) (S (length d1)) input_decode_np (g_input_count g) d1) as Hi.
  destruct (dec_maps input_decode _ _ _ _) as [[is d2]| |]; cbn [map_err bind] in H; try discriminate; [|congruence].
  destruct (g_output_count g * size_output <=? ISIZE_MAX) eqn:C2; [|right; lia]. cbn [panic_unless bind] in H.
  pose proof (dec_maps_np output_decode (ODDeserPair SNoMorePairs) (S (length d2)) output_decode_np (g_output_count g) d2) as Ho.
  destruct (dec_maps output_decode _ _ _ _) as [[os d3]| |]; cbn [map_err bind] in H; try discriminate. congruence.
Qed.

End Facts.

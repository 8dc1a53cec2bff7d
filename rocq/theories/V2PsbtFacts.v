(** Facts about the codec of v2 PSBTs (src/v2/mod.rs:592-654). *)
From Coq Require Import Permutation.
From Verif Require Import Base OMap Consensus ConsensusFacts Ext Raw RawFacts TapTree TapTreeFacts
  Serialize SerializeFacts MapCodec MapFacts V2Global V2Input V2Output V2Psbt
  V2OutputFacts V2InputFacts V2GlobalFacts SpecCodec SpecCodecFacts SpecPsbt.
Local Open Scope N_scope.

Ltac inj2 H := apply Ok_inj in H; apply pair_equal_spec in H as [? ?]; subst.

(** ** Decoding a number of maps *)

(** A reader described by a grammar: it reads [enc l] for the lists [l] it accepts. *)
Section Maps.
Context {E A B : Type} (dec : reader E A) (enc : B -> bytes) (acc : B -> A -> Prop) (out : E).
Hypothesis Hdec : forall bs a r, dec bs = Ok (a, r) <-> exists l, bs = enc l ++ r /\ acc l a.
Hypothesis Henc : forall l, enc l <> [].

Lemma dec_maps_inv fuel : forall n d l r,
  dec_maps dec out fuel n d = Ok (l, r) ->
  exists ls, d = concat (map enc ls) ++ r /\ Forall2 acc ls l /\ n = blen l.
Proof.
  induction fuel as [|f IH]; intros n d l r H; cbn [dec_maps] in H.
  - destruct (n =? 0) eqn:En; [|discriminate]. inj2 H. exists []. split; [reflexivity|]. split; [constructor|]. change (n = 0). lia.
  - destruct (n =? 0) eqn:En.
    + inj2 H. exists []. split; [reflexivity|]. split; [constructor|]. change (n = 0). lia.
    + apply bind_ok in H as ([a r1] & H1 & H). apply bind_ok in H as ([l' r2] & H2 & H). inj2 H.
      apply Hdec in H1 as (b & -> & Hb). apply IH in H2 as (ls & -> & Hls & Hn).
      exists (b :: ls). cbn [map concat]. rewrite <- app_assoc. repeat split; auto.
      rewrite blen_cons. lia.
Qed.

Lemma dec_maps_intro ls l : Forall2 acc ls l -> forall fuel r,
  (length ls < fuel)%nat -> dec_maps dec out fuel (blen l) (concat (map enc ls) ++ r) = Ok (l, r).
Proof.
  induction 1 as [|b a ls l Hb Hls IH]; intros fuel r Hf.
  - destruct fuel; reflexivity.
  - destruct fuel as [|f]; [lia|]. cbn [dec_maps map concat]. rewrite <- app_assoc.
    replace (blen (a :: l) =? 0) with false by (rewrite blen_cons; lia).
    assert (E1 : dec (enc b ++ concat (map enc ls) ++ r) = Ok (a, concat (map enc ls) ++ r)) by (apply Hdec; eauto).
    rewrite E1. cbn [bind]. replace (blen (a :: l) - 1) with (blen l) by (rewrite blen_cons; lia).
    rewrite IH by (cbn [length] in Hf; lia). reflexivity.
Qed.

Lemma concat_enc_length ls : (length ls <= length (concat (map enc ls)))%nat.
Proof.
  induction ls as [|l ls IH]; cbn [map concat length]; [lia|]. rewrite app_length.
  specialize (Henc l). destruct (enc l); [congruence|]. cbn [length]. lia.
Qed.

Lemma dec_maps_iff n d l r :
  dec_maps dec out (S (length d)) n d = Ok (l, r)
  <-> exists ls, d = concat (map enc ls) ++ r /\ Forall2 acc ls l /\ n = blen l.
Proof.
  split; [apply dec_maps_inv|]. intros (ls & -> & H & ->). apply dec_maps_intro; auto.
  rewrite app_length. pose proof (concat_enc_length ls). lia.
Qed.

Lemma dec_maps_np fuel : (forall b, dec b <> Panic) -> forall n d, dec_maps dec out fuel n d <> Panic.
Proof.
  intros Hp. induction fuel as [|f IH]; intros n d; cbn [dec_maps]; destruct (n =? 0); try discriminate.
  specialize (Hp d). destruct (dec d) as [[a r]| |]; cbn; try congruence.
  specialize (IH (n - 1) r). destruct (dec_maps _ _ _ _ _) as [[l' r']| |]; cbn; congruence.
Qed.

End Maps.

Lemma ser_pairs_nonempty l : ser_pairs l <> [].
Proof. unfold ser_pairs. destruct (enc_all _ _); discriminate. Qed.

(** Two splits of the same bytes into maps agree. *)
Lemma ser_pairs_unique l : forall l' a b,
  Forall wf_pair l' -> map_wire l (ser_pairs l) -> ser_pairs l ++ a = ser_pairs l' ++ b -> l = l' /\ a = b.
Proof.
  assert (Hsz : forall n, 0 < n -> n < 2 ^ 64 -> exists x r, enc_varint n = x :: r /\ x <> x00).
  { intros n H0 Hn. destruct (enc_varint n) as [|x r] eqn:E; [now apply enc_varint_nonempty in E|].
    exists x, r. split; auto. intros ->. unfold enc_varint in E.
    destruct (n <? 253) eqn:E1; [|destruct (n <? 65536); [discriminate|destruct (n <? 4294967296); discriminate]].
    injection E as E _. apply (f_equal b2n) in E. rewrite b2n_n2b in E by lia. change (b2n x00) with 0 in E. lia. }
  assert (Hhd : forall p, pair_wire p (ser_pair p) -> exists x r, ser_pair p = x :: r /\ x <> x00).
  { intros p (kl & vl & Hk & _ & E). apply compact_size_enc in Hk as [-> Hk].
    destruct (Hsz (1 + blen (k_data (p_key p)))) as (x & r & Ex & Hx); [lia|assumption|].
    rewrite E, Ex. eexists x, _. split; [reflexivity|assumption]. }
  induction l as [|p l IH]; intros l' a b Hl' Hw E.
  - change (ser_pairs []) with [x00] in E. destruct l' as [|q l']; [change (ser_pairs []) with [x00] in E; cbn [app] in E; split; congruence|]. exfalso.
    apply Forall_cons_iff in Hl' as [Hq _]. destruct (ser_pair_head q Hq) as (x & r & Ex & Hx).
    unfold ser_pairs in E. rewrite enc_all_cons, Ex in E. cbn [app] in E. congruence.
  - assert (Hp : pair_wire p (ser_pair p) /\ map_wire l (ser_pairs l)).
    { inversion Hw as [|? ? b1 c1 Hp Hm Eq Eb]; subst. pose proof (pair_wire_ser _ _ Hp). pose proof (map_wire_ser _ _ Hm).
      subst. auto. }
    destruct Hp as [Hp Hm]. destruct l' as [|q l'].
    + exfalso. destruct (Hhd p Hp) as (x & r & Ex & Hx).
      change (ser_pairs []) with [x00] in E. unfold ser_pairs in E. rewrite enc_all_cons, Ex in E. cbn [app] in E. congruence.
    + apply Forall_cons_iff in Hl' as [Hq Hl'].
      unfold ser_pairs in E. rewrite !enc_all_cons, <- !app_assoc in E.
      change (enc_all ser_pair l ++ [x00] ++ a) with (enc_all ser_pair l ++ ([x00] ++ a)) in E.
      rewrite !(app_assoc (enc_all ser_pair _)) in E. fold (ser_pairs l) (ser_pairs l') in E.
      assert (Hpq : p = q /\ ser_pairs l ++ a = ser_pairs l' ++ b).
      { destruct Hp as (kl & vl & Hk & Hv & _).
        apply compact_size_enc in Hk as [_ Hk]. apply compact_size_enc in Hv as [_ Hv].
        destruct Hq as [Hqk Hqv]. change (2 ^ 64) with U64 in Hk, Hv. rewrite N.add_comm in Hk.
        apply ser_pair_prefix_free in E; auto; unfold wf_key, wf_value, wf_vec, MAX_VEC_SIZE, MAX_VALUE, U64 in *; lia. }
      destruct Hpq as [-> Hpq]. apply IH in Hpq as [-> ->]; auto.
Qed.

Lemma sers_unique ls : forall ls' a b,
  length ls = length ls' -> Forall (Forall wf_pair) ls' -> Forall (fun l => map_wire l (ser_pairs l)) ls ->
  concat (map ser_pairs ls) ++ a = concat (map ser_pairs ls') ++ b -> ls = ls' /\ a = b.
Proof.
  induction ls as [|l ls IH]; intros [|l' ls'] a b Hlen Hl' Hw E; try discriminate; [auto|].
  cbn [map concat] in E. rewrite <- !app_assoc in E.
  apply Forall_cons_iff in Hl' as [H1 H2]. apply Forall_cons_iff in Hw as [H3 H4].
  apply ser_pairs_unique in E as [-> E]; auto. apply IH in E as [-> ->]; auto.
Qed.

Lemma Forall2_map_wire ls bs : Forall2 map_wire ls bs -> bs = map ser_pairs ls /\ Forall (fun l => map_wire l (ser_pairs l)) ls.
Proof.
  induction 1 as [|l b ls bs H1 H2 [-> IH]]; [auto|]. pose proof (map_wire_ser _ _ H1). subst b. cbn. auto.
Qed.

Definition HEAD : bytes := [x70; x73; x62; x74; xff].

Lemma psbt_wire_ser lg lis los w :
  psbt_wire lg lis los w ->
  w = HEAD ++ ser_pairs lg ++ concat (map ser_pairs lis) ++ concat (map ser_pairs los)
  /\ map_wire lg (ser_pairs lg) /\ Forall (fun l => map_wire l (ser_pairs l)) lis
  /\ Forall (fun l => map_wire l (ser_pairs l)) los.
Proof.
  intros (bg & bis & bos & Hg & Hi & Ho & ->). apply Forall2_map_wire in Hi as [-> Hi].
  apply Forall2_map_wire in Ho as [-> Ho]. pose proof (map_wire_ser _ _ Hg). subst bg. auto.
Qed.

Lemma wf_pairs_wire ls : Forall (Forall wf_pair) ls -> Forall2 map_wire ls (map ser_pairs ls).
Proof. induction 1 as [|l ls H1 H2 IH]; cbn; constructor; auto. now apply ser_pairs_spec. Qed.

Lemma psbt_wire_intro lg lis los :
  Forall wf_pair lg -> Forall (Forall wf_pair) lis -> Forall (Forall wf_pair) los ->
  psbt_wire lg lis los (HEAD ++ ser_pairs lg ++ concat (map ser_pairs lis) ++ concat (map ser_pairs los)).
Proof.
  intros Hg Hi Ho. exists (ser_pairs lg), (map ser_pairs lis), (map ser_pairs los).
  split; [now apply ser_pairs_spec|]. split; [now apply wf_pairs_wire|]. split; [now apply wf_pairs_wire|reflexivity].
Qed.

Section Facts.
Context `{X : Ext} {L : ExtLaws X} `{C : Cfg}.

(** ** The grammar of the three maps *)

Definition output_acc (l : list pair) (o : output) : Prop :=
  Forall wf_pair l /\ ins_all output_insert_pair l output_invalid = Ok o /\ output_check o = Ok o.
Definition input_acc (l : list pair) (i : input) : Prop :=
  Forall wf_pair l /\ ins_all input_insert_pair l input_invalid = Ok i /\ input_check i = Ok i.
Definition global_acc (l : list pair) (g : global) : Prop :=
  Forall wf_pair l /\ exists d, ins_all global_insert_pair l gdec_init = Ok d /\ global_check d = Ok g.

Lemma output_check_id o o' : output_check o = Ok o' -> o' = o.
Proof. unfold output_check. intros H. binds H. congruence. Qed.
Lemma input_check_id o o' : input_check o = Ok o' -> o' = o.
Proof. unfold input_check. intros H. binds H. congruence. Qed.

Lemma output_decode_iff bs o r :
  output_decode bs = Ok (o, r) <-> exists l, bs = ser_pairs l ++ r /\ output_acc l o.
Proof.
  unfold output_decode, output_acc. split.
  - intros H. apply bind_ok in H as ([s r'] & H1 & H). apply bind_ok in H as (o' & H2 & H). inj2 H.
    apply dec_map_iff in H1 as (l & H3 & H4 & H5). pose proof (output_check_id _ _ H2). subst. eauto 6.
  - intros (l & E & H1 & H2 & H3).
    assert (D : dec_map (fun p o => map_err ODInsertPair (output_insert_pair p o)) ODDeserPair
                        (S (length bs)) output_invalid bs = Ok (o, r)) by (apply dec_map_iff; eauto).
    rewrite D. cbn [bind]. rewrite H3. reflexivity.
Qed.
Lemma input_decode_iff bs o r :
  input_decode bs = Ok (o, r) <-> exists l, bs = ser_pairs l ++ r /\ input_acc l o.
Proof.
  unfold input_decode, input_acc. split.
  - intros H. apply bind_ok in H as ([s r'] & H1 & H). apply bind_ok in H as (o' & H2 & H). inj2 H.
    apply dec_map_iff in H1 as (l & H3 & H4 & H5). pose proof (input_check_id _ _ H2). subst. eauto 6.
  - intros (l & E & H1 & H2 & H3).
    assert (D : dec_map (fun p o => map_err IDInsertPair (input_insert_pair p o)) IDDeserPair
                        (S (length bs)) input_invalid bs = Ok (o, r)) by (apply dec_map_iff; eauto).
    rewrite D. cbn [bind]. rewrite H3. reflexivity.
Qed.
Lemma global_decode_iff bs o r :
  global_decode bs = Ok (o, r) <-> exists l, bs = ser_pairs l ++ r /\ global_acc l o.
Proof.
  unfold global_decode, global_acc. split.
  - intros H. apply bind_ok in H as ([s r'] & H1 & H). apply bind_ok in H as (o' & H2 & H). inj2 H.
    apply dec_map_iff in H1 as (l & H3 & H4 & H5). eauto 8.
  - intros (l & E & H1 & d & H2 & H3).
    assert (D : dec_map (fun p o => map_err GDInsertPair (global_insert_pair p o)) GDDeserPair
                        (S (length bs)) gdec_init bs = Ok (d, r)) by (apply dec_map_iff; eauto).
    rewrite D. cbn [bind]. rewrite H3. reflexivity.
Qed.

Ltac np_check H :=
  repeat match goal with
    | |- context [fail_if ?b _] => destruct b; cbn [fail_if bind]; try discriminate
    | |- context [ok_or ?b _] => destruct b; cbn [ok_or bind]; try discriminate
  end.
Lemma output_decode_np bs : output_decode bs <> Panic.
Proof.
  unfold output_decode.
  pose proof (dec_map_nopanic (fun p o => map_err ODInsertPair (output_insert_pair p o)) ODDeserPair (S (length bs)) output_invalid bs) as H.
  destruct (dec_map _ _ _ _ _) as [[s r]| |]; cbn [bind]; try discriminate.
  - unfold output_check. np_check H.
  - exfalso. apply H; [|reflexivity]. intros p a. pose proof (frame_np _ _ _ _ _ _ oframe _ _ _ _ ospec p a).
    destruct (output_insert_pair p a); cbn; congruence.
Qed.
Lemma input_decode_np bs : input_decode bs <> Panic.
Proof.
  unfold input_decode.
  pose proof (dec_map_nopanic (fun p o => map_err IDInsertPair (input_insert_pair p o)) IDDeserPair (S (length bs)) input_invalid bs) as H.
  destruct (dec_map _ _ _ _ _) as [[s r]| |]; cbn [bind]; try discriminate.
  - unfold input_check. np_check H.
  - exfalso. apply H; [|reflexivity]. intros p a. pose proof (frame_np _ _ _ _ _ _ iframe _ _ _ _ ispec p a).
    destruct (input_insert_pair p a); cbn; congruence.
Qed.
Lemma global_decode_np bs : global_decode bs <> Panic.
Proof.
  unfold global_decode.
  pose proof (dec_map_nopanic (fun p o => map_err GDInsertPair (global_insert_pair p o)) GDDeserPair (S (length bs)) gdec_init bs) as H.
  destruct (dec_map _ _ _ _ _) as [[s r]| |]; cbn [bind]; try discriminate.
  - unfold global_check. np_check H.
  - exfalso. apply H; [|reflexivity]. intros p a. pose proof (frame_np _ _ _ _ _ _ gframe _ _ _ _ gspec p a).
    destruct (global_insert_pair p a); cbn; congruence.
Qed.

End Facts.

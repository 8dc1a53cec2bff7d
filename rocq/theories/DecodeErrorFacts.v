(** What the errors of the decoders say. *)
From Verif Require Import Base OMap Consensus ConsensusFacts Ext Raw RawFacts TapTree TapTreeFacts
  Serialize SerializeFacts MapCodec MapFacts V2Global V2Input V2InputFacts V2GlobalFacts V2Output V2OutputFacts
  V2Psbt V2PsbtFacts V2CodecFacts V2WireFacts V2PairFacts SpecCodec SpecCodecFacts SpecPsbt
  V0Error V0Input V0Output V0Psbt V0GlobalFacts V0InputFacts V0OutputFacts V0PsbtFacts V0WireFacts SpecErrors ErrorFacts.
Local Open Scope N_scope.

Lemma map_bytes_ser l : map_bytes l = ser_pairs l.
Proof. unfold map_bytes, ser_pairs, enc_all. now rewrite flat_map_concat_map. Qed.
Lemma maps_bytes_ser ls : concat (map map_bytes ls) = concat (map ser_pairs ls).
Proof. f_equal. apply map_ext, map_bytes_ser. Qed.

(** A field that a pair fills stays filled. *)
Lemma filled {A} (upd : pair -> A -> res ierr A) (P : A -> bool) :
  (forall p a a', upd p a = Ok a' -> P a' = true) ->
  forall l a a', ins_all upd l a = Ok a' -> P a' = false -> l = [].
Proof.
  intros HP. induction l as [|p l IH]; intros a a' H N; [reflexivity|]. cbn [ins_all] in H. binds H.
  pose proof (IH _ _ H N). subst l. cbn [ins_all] in H. inj H. apply HP in Hx. congruence.
Qed.

(** A placeholder is left only by pairs that carry it. *)
Lemma placeheld {A} (isp : A -> bool) (de : bytes -> res serr A) : forall l a a',
  ins_all (ins_placeholder isp de) l a = Ok a' -> isp a' = true ->
  forall q, In q l -> exists v, de (p_value q) = Ok v /\ isp v = true.
Proof.
  induction l as [|p l IH]; intros a a' H N q Hq; [destruct Hq|]. cbn [ins_all] in H. binds H.
  destruct Hq as [->|Hq]; [|exact (IH _ _ H N q Hq)].
  unfold ins_placeholder in Hx. destruct (negb (isp a)); [discriminate|]. apply map_err_ok in Hx. exists x. split; [exact Hx|].
  destruct l as [|p l]; cbn [ins_all] in H; [inj H; exact N|]. binds H. unfold ins_placeholder in Hx0.
  destruct (isp x); [reflexivity|discriminate].
Qed.

Section Facts.
Context `{X : Ext} {L : ExtLaws X} `{C : Cfg}.

Section Frame.
Context {F St : Type} (fty : F -> Type) (get : forall f, St -> fty f) (set : forall f, fty f -> St -> St)
  (Fdec : forall a b : F, {a = b} + {a <> b}) (upd : forall f, pair -> fty f -> res ierr (fty f)) (slot : byte -> F)
  (ins : pair -> St -> res ierr St) (O : frame_ok fty get set upd slot ins).

Lemma frame_lacks f t (P : fty f -> bool) l s s' :
  (forall p a a', upd f p a = Ok a' -> P a' = true) -> (forall b, t = b <-> slot b = f) ->
  ins_all ins l s = Ok s' -> P (get f s') = false -> lacks l t.
Proof.
  intros HP E H N q Hq T. pose proof (frame_fields fty get set Fdec upd slot ins O l _ _ H f) as Q.
  apply (filled _ P HP) in Q; [|exact N].
  assert (In q []) as Hn. { rewrite <- Q. apply filter_In. split; [exact Hq|]. apply of_slot_true, E. now symmetry. }
  destruct Hn.
Qed.

Lemma frame_has f t (P : fty f -> bool) l s s' :
  (forall b, t = b <-> slot b = f) -> P (get f s) = false ->
  ins_all ins l s = Ok s' -> P (get f s') = true -> ~ lacks l t.
Proof.
  intros E P0 H N K. pose proof (frame_fields fty get set Fdec upd slot ins O l _ _ H f) as Q.
  assert (filter (of_slot Fdec slot f) l = []) as Z.
  { destruct (filter _ l) as [|q r] eqn:Z; [reflexivity|]. exfalso.
    assert (In q (filter (of_slot Fdec slot f) l)) as Hq by (rewrite Z; now left).
    apply filter_In in Hq as [Hq Hs]. apply of_slot_true in Hs. apply E in Hs. apply (K q Hq). now symmetry. }
  rewrite Z in Q. cbn [ins_all] in Q. inj Q. congruence.
Qed.

Lemma frame_but
    f t (isp : fty f -> bool) de w l s s' :
  upd f = ins_placeholder isp de -> (forall b, t = b <-> slot b = f) ->
  (forall v a, de v = Ok a -> isp a = true -> v = w) ->
  ins_all ins l s = Ok s' -> isp (get f s') = true -> lacks_but l t w.
Proof.
  intros U E D H N q Hq T. pose proof (frame_fields fty get set Fdec upd slot ins O l _ _ H f) as Q. rewrite U in Q.
  destruct (placeheld _ _ _ _ _ Q N q) as (v & E1 & E2); [|now apply (D _ v)].
  apply filter_In. split; [exact Hq|]. apply of_slot_true, E. now symmetry.
Qed.

End Frame.

(** ** The checks after the last pair *)

Lemma fail_if_err {E} b (e e' : E) : fail_if b e = Err e' -> b = true /\ e = e'.
Proof. destruct b; cbn; intros H; [split; congruence|discriminate]. Qed.
Lemma ok_or_err {E A} (o : option A) (e e' : E) : ok_or o e = Err e' -> o = None /\ e = e'.
Proof. destruct o; cbn; intros H; [discriminate|split; congruence]. Qed.
Lemma bind_err {E A B} (x : res E A) (f : A -> res E B) e : bind x f = Err e -> x = Err e \/ exists a, x = Ok a /\ f a = Err e.
Proof. destruct x; cbn; intros H; [right; eauto|left; congruence|discriminate]. Qed.
Lemma map_err_err {E E' A} (g : E -> E') (x : res E A) e : map_err g x = Err e -> exists e', x = Err e' /\ e = g e'.
Proof. destruct x; cbn; intros H; [discriminate| |discriminate]. exists e0. split; congruence. Qed.

Lemma counts_lacks l : forall c c', ins_all gcounts_upd l c = Ok c' ->
  Forall (fun q => x04 = k_type (p_key q) \/ x05 = k_type (p_key q)) l ->
  (fst c' = None -> fst c = None /\ lacks l x04) /\ (snd c' = None -> snd c = None /\ lacks l x05).
Proof.
  induction l as [|p l IH]; intros c c' H T; cbn [ins_all] in H.
  - inj H. split; intros E; (split; [exact E|intros q []]).
  - binds H. apply Forall_cons_iff in T as [Tp T]. destruct (IH _ _ H T) as [I1 I2]. clear IH H.
    unfold gcounts_upd, ptype in Hx. destruct Tp as [Tp|Tp].
    + rewrite <- Tp in Hx. change (beq x04 x04) with true in Hx. cbv iota in Hx. unfold gins_input_count in Hx.
      destruct (is_empty _); [|discriminate]. destruct (is_none _); [|discriminate].
      apply bind_ok in Hx as ([n r] & _ & Hx). injection Hx as <- <-. cbn [fst snd] in *. split.
      * intros E. destruct (I1 E) as [E1 _]. discriminate E1.
      * intros E. apply I2 in E as [E K]. split; [exact E|]. intros q [<-|Hq]; [rewrite <- Tp; discriminate|now apply K].
    + rewrite <- Tp in Hx. change (beq x05 x04) with false in Hx. cbv iota in Hx. unfold gins_output_count in Hx.
      destruct (is_empty _); [|discriminate]. destruct (is_none _); [|discriminate].
      apply bind_ok in Hx as ([n r] & _ & Hx). injection Hx as <- <-. cbn [fst snd] in *. split.
      * intros E. apply I1 in E as [E K]. split; [exact E|]. intros q [<-|Hq]; [rewrite <- Tp; discriminate|now apply K].
      * intros E. destruct (I2 E) as [E1 _]. discriminate E1.
Qed.

Lemma m_put_nonempty {K V} (sk : K -> list N) k (v : V) m : is_empty (m_put sk k v m) = false.
Proof. destruct m as [|[k' v'] m]; cbn; [reflexivity|]. destruct (lex _ _); reflexivity. Qed.
Lemma ins_sp_fills dev n p m m' : ins_sp dev n p m = Ok m' -> negb (is_empty m') = true.
Proof.
  unfold ins_sp. intros H. destruct (is_empty (k_data _)); [discriminate|]. binds H.
  destruct (m_mem _ _ _); [discriminate|]. inj H. now rewrite m_put_nonempty.
Qed.

(** Exactly one of two maps is empty. *)
Lemma one_of (A B : Prop) (a b : bool) :
  (a = true -> A) -> (a = false -> ~ A) -> (b = true -> B) -> (b = false -> ~ B) -> Bool.eqb a b = false -> (A <-> ~ B).
Proof. intros. destruct a, b; try discriminate; tauto. Qed.

Lemma global_check_says l d e : ins_all global_insert_pair l gdec_init = Ok d -> global_check d = Err e ->
  global_incomplete feat_sp l e.
Proof.
  intros H K. unfold global_check in K.
  pose proof (fun f t P HP E => frame_lacks _ gget gset gfield_dec gupd gslot _ gframe f t P l _ _ HP E H) as Lk.
  pose proof (fun f t P E P0 => frame_has _ gget gset gfield_dec gupd gslot _ gframe f t P l _ _ E P0 H) as Hs.
  pose proof (frame_fields _ gget gset gfield_dec gupd gslot _ gframe _ _ _ H GCounts) as Q. cbn [gupd gget] in Q.
  assert (T : Forall (fun q => x04 = k_type (p_key q) \/ x05 = k_type (p_key q)) (filter (of_slot gfield_dec gslot GCounts) l)).
  { apply Forall_forall. intros q Hq. apply filter_In in Hq as [_ Hq]. apply of_slot_true in Hq. now apply gslot_GCounts. }
  assert (Fl : forall t, (t = x04 \/ t = x05) -> lacks (filter (of_slot gfield_dec gslot GCounts) l) t -> lacks l t).
  { intros t Ht K2 q Hq Eq. apply (K2 q); [|exact Eq]. apply filter_In. split; [exact Hq|]. apply of_slot_true, gslot_GCounts.
    unfold ptype. destruct Ht as [Ht|Ht]; [left|right]; congruence. }
  destruct (counts_lacks _ _ _ Q T) as [K1 K2]. destruct (gcounts_origin _ _ _ Q T) as [O1 O2].
  apply bind_err in K as [K|(v & _ & K)].
  { apply ok_or_err in K as [K <-]. apply (Lk GVersion xfb is_some); [|exact gslot_GVersion|cbn [gget]; now rewrite K].
    cbn [gupd gty]. unfold gins_version. intros p a a' G. destruct (is_empty _); [|discriminate]. destruct (is_none _); [|discriminate].
    binds G. now inj G. }
  apply bind_err in K as [K|(tv & _ & K)].
  { apply ok_or_err in K as [K <-]. apply (Lk GTxVersion x02 is_some); [|exact gslot_GTxVersion|cbn [gget]; now rewrite K].
    cbn [gupd gty]. unfold gins_u32. intros p a a' G. destruct (is_empty _); [|discriminate]. destruct (is_none _); [|discriminate].
    binds G. now inj G. }
  cbv zeta in K.
  apply bind_err in K as [K|(ic & Ei & K)].
  { apply ok_or_err in K as [K <-]. apply Fl; [now left|]. now apply K1. }
  apply bind_err in K as [K|([] & _ & K)].
  { apply fail_if_err in K as [K _]. exfalso. apply ok_or_ok in Ei. rewrite Ei in O1.
    destruct O1 as [O1|(q & n & r & _ & _ & O1 & E)]; [discriminate|]. apply dec_varint_canon in O1 as [_ W].
    injection E as <-. unfold wf_u64 in W. lia. }
  apply bind_err in K as [K|(oc & Eo & K)].
  { apply ok_or_err in K as [K <-]. apply Fl; [now right|]. now apply K2. }
  apply bind_err in K as [K|([] & _ & K)].
  { apply fail_if_err in K as [K _]. exfalso. apply ok_or_ok in Eo. rewrite Eo in O2.
    destruct O2 as [O2|(q & n & r & _ & _ & O2 & E)]; [discriminate|]. apply dec_varint_canon in O2 as [_ W].
    injection E as <-. unfold wf_u64 in W. lia. }
  apply bind_err in K as [K|([] & _ & K)]; [|discriminate].
  apply fail_if_err in K as [K <-]. apply andb_prop in K as [F K]. apply negb_true_iff in K.
  split; [exact F|].
  apply (one_of _ _ (is_empty (gd_sp_ecdh_shares d)) (is_empty (gd_sp_dleq_proofs d))); [| | | |exact K].
  - intros E. apply (Lk GSpEcdhShares x07 (fun m => negb (is_empty m))); [|exact (fun b => gslot_GSpEcdhShares b F)|cbn [gget]; now rewrite E].
    cbn [gupd gty]. intros p a a'. apply ins_sp_fills.
  - intros E. apply (Hs GSpEcdhShares x07 (fun m => negb (is_empty m))); [exact (fun b => gslot_GSpEcdhShares b F)|reflexivity|cbn [gget]; now rewrite E].
  - intros E. apply (Lk GSpDleqProofs x08 (fun m => negb (is_empty m))); [|exact (fun b => gslot_GSpDleqProofs b F)|cbn [gget]; now rewrite E].
    cbn [gupd gty]. intros p a a'. apply ins_sp_fills.
  - intros E. apply (Hs GSpDleqProofs x08 (fun m => negb (is_empty m))); [exact (fun b => gslot_GSpDleqProofs b F)|reflexivity|cbn [gget]; now rewrite E].
Qed.

Lemma input_check_says l i e : ins_all input_insert_pair l input_invalid = Ok i -> input_check i = Err e ->
  input_incomplete feat_sp l e.
Proof.
  intros H K. unfold input_check in K.
  pose proof (fun f t P HP E => frame_lacks _ iget iset ifield_dec iupd islot _ iframe f t P l _ _ HP E H) as Lk.
  pose proof (fun f t P E P0 => frame_has _ iget iset ifield_dec iupd islot _ iframe f t P l _ _ E P0 H) as Hs.
  apply bind_err in K as [K|([] & _ & K)].
  { apply fail_if_err in K as [K <-]. apply bytes_eqb_eq in K. cbn [input_incomplete].
    refine (frame_but _ iget iset ifield_dec iupd islot _ iframe IPreviousTxid x0e (bytes_eqb TXID_ZERO) (de_hash 32) _ l _ _ eq_refl islot_IPreviousTxid _ H _).
    - intros v a D E. apply bytes_eqb_eq in E. subst a. unfold de_hash in D. destruct (_ =? _); [|discriminate]. now inj D.
    - cbn [iget]. rewrite K. reflexivity. }
  apply bind_err in K as [K|([] & _ & K)].
  { apply fail_if_err in K as [K <-]. apply N.eqb_eq in K. cbn [input_incomplete].
    refine (frame_but _ iget iset ifield_dec iupd islot _ iframe ISpentOutputIndex x0f (N.eqb U32_MAX) de_u32 _ l _ _ eq_refl islot_ISpentOutputIndex _ H _).
    - intros v a D E. apply N.eqb_eq in E. subst a. apply (de_consensus_canonical _ _ _ dec_u32_canon) in D. rewrite D. reflexivity.
    - cbn [iget]. rewrite K. reflexivity. }
  apply bind_err in K as [K|([] & _ & K)]; [|discriminate].
  apply fail_if_err in K as [K <-]. apply andb_prop in K as [F K]. apply negb_true_iff in K.
  split; [exact F|].
  apply (one_of _ _ (is_empty (in_sp_ecdh_shares i)) (is_empty (in_sp_dleq_proofs i))); [| | | |exact K].
  - intros E. apply (Lk ISpEcdhShares x1d (fun m => negb (is_empty m))); [|exact (fun b => islot_ISpEcdhShares b F)|cbn [iget]; now rewrite E].
    cbn [iupd ity]. intros p a a'. apply ins_sp_fills.
  - intros E. apply (Hs ISpEcdhShares x1d (fun m => negb (is_empty m))); [exact (fun b => islot_ISpEcdhShares b F)|reflexivity|cbn [iget]; now rewrite E].
  - intros E. apply (Lk ISpDleqProofs x1e (fun m => negb (is_empty m))); [|exact (fun b => islot_ISpDleqProofs b F)|cbn [iget]; now rewrite E].
    cbn [iupd ity]. intros p a a'. apply ins_sp_fills.
  - intros E. apply (Hs ISpDleqProofs x1e (fun m => negb (is_empty m))); [exact (fun b => islot_ISpDleqProofs b F)|reflexivity|cbn [iget]; now rewrite E].
Qed.

Lemma output_check_says l o e : ins_all output_insert_pair l output_invalid = Ok o -> output_check o = Err e ->
  output_incomplete feat_sp l e.
Proof.
  intros H K. unfold output_check in K.
  pose proof (fun f t P HP E => frame_lacks _ oget oset ofield_dec oupd oslot _ oframe f t P l _ _ HP E H) as Lk.
  pose proof (fun f t P E P0 => frame_has _ oget oset ofield_dec oupd oslot _ oframe f t P l _ _ E P0 H) as Hs.
  apply bind_err in K as [K|([] & _ & K)].
  { apply fail_if_err in K as [K <-]. cbn [output_incomplete].
    refine (frame_but _ oget oset ofield_dec oupd oslot _ oframe OAmount x03 (fun a => a =? 0) de_amount _ l _ _ eq_refl oslot_OAmount _ H _).
    - intros v a D E. apply N.eqb_eq in E. subst a. apply (de_consensus_canonical _ _ _ dec_u64_canon) in D. rewrite D. reflexivity.
    - exact K. }
  apply bind_err in K as [K|([] & _ & K)].
  { apply fail_if_err in K as [K <-]. apply andb_prop in K as [F K]. apply negb_true_iff in F. split; [exact F|].
    refine (frame_but _ oget oset ofield_dec oupd oslot _ oframe OScriptPubkey x04 is_empty de_script _ l _ _ eq_refl oslot_OScriptPubkey _ H K).
    intros v a D E. unfold de_script in D. inj D. now apply is_empty_nil. }
  apply bind_err in K as [K|([] & _ & K)]; [|discriminate].
  apply fail_if_err in K as [K <-]. apply andb_prop in K as [K K2]. apply andb_prop in K as [F K1].
  split; [exact F|]. split.
  - apply (Hs OSpLabel x0a is_some); [exact (fun b => oslot_OSpLabel b F)|reflexivity|exact K1].
  - apply (Lk OSpInfo x09 is_some); [|exact (fun b => oslot_OSpInfo b F)|].
    + cbn [oupd oty]. unfold ins_sp_v0_info. intros p a a' G. binds G. now inj G.
    + cbn [oget]. unfold is_none in K2. now apply negb_true_iff.
Qed.

(** ** Map decoders *)

Lemma global_decode_says bs e : global_decode bs = Err e -> global_says feat_sp bs e.
Proof.
  intros H. unfold global_decode in H. apply bind_err in H as [H|([d r] & H & K)].
  - apply dec_map_err in H as [(l & p & r & s & e' & -> & H1 & H2 & ->)|(s & B & ->)]; [| |lia].
    + exists l, p, r. split; [reflexivity|]. exact (g_refused _ _ _ _ H1 H2).
    + exact B.
  - apply dec_map_iff in H as (l & -> & _ & H). apply bind_err in K as [K|(g & _ & K)]; [|discriminate].
    pose proof (global_check_says _ _ _ H K) as S0. unfold global_says.
    destruct e; try (exists l, r; split; [now rewrite map_bytes_ser|exact S0]); destruct S0.
Qed.
Lemma input_decode_says bs e : input_decode bs = Err e -> input_says feat_sp bs e.
Proof.
  intros H. unfold input_decode in H. apply bind_err in H as [H|([d r] & H & K)].
  - apply dec_map_err in H as [(l & p & r & s & e' & -> & H1 & H2 & ->)|(s & B & ->)]; [| |lia].
    + exists l, p, r. split; [reflexivity|]. exact (i_refused _ _ _ _ H1 H2).
    + exact B.
  - apply dec_map_iff in H as (l & -> & _ & H). apply bind_err in K as [K|(g & _ & K)]; [|discriminate].
    pose proof (input_check_says _ _ _ H K) as S0. unfold input_says.
    destruct e; try (exists l, r; split; [now rewrite map_bytes_ser|exact S0]); destruct S0.
Qed.
Lemma output_decode_says bs e : output_decode bs = Err e -> output_says feat_sp bs e.
Proof.
  intros H. unfold output_decode in H. apply bind_err in H as [H|([d r] & H & K)].
  - apply dec_map_err in H as [(l & p & r & s & e' & -> & H1 & H2 & ->)|(s & B & ->)]; [| |lia].
    + exists l, p, r. split; [reflexivity|]. exact (o_refused _ _ _ _ H1 H2).
    + exact B.
  - apply dec_map_iff in H as (l & -> & _ & H). apply bind_err in K as [K|(g & _ & K)]; [|discriminate].
    pose proof (output_check_says _ _ _ H K) as S0. unfold output_says.
    destruct e; try (exists l, r; split; [now rewrite map_bytes_ser|exact S0]); destruct S0.
Qed.

(** ** Sequences of maps *)

Lemma dec_maps_err {E A} (dec : reader E A) (acc : list pair -> A -> Prop) (out : E) :
  (forall bs a r, dec bs = Ok (a, r) <-> exists l, bs = ser_pairs l ++ r /\ acc l a) ->
  forall fuel n d e, (length d < fuel)%nat -> dec_maps dec out fuel n d = Err e ->
  exists ls d', d = concat (map map_bytes ls) ++ d' /\ blen ls < n /\ dec d' = Err e.
Proof.
  intros Hd. induction fuel as [|f IH]; intros n d e Hf H; [lia|]. cbn [dec_maps] in H.
  destruct (n =? 0) eqn:N0; [discriminate|]. apply bind_err in H as [H|([a r] & H & K)].
  - exists [], d. cbn. split; [reflexivity|]. split; [|exact H]. unfold blen. cbn. lia.
  - apply bind_err in K as [K|([l r'] & _ & K)]; [|discriminate]. apply Hd in H as (l & -> & _).
    apply IH in K as (ls & d' & -> & B & K).
    + exists (l :: ls), d'. cbn [map concat]. rewrite <- app_assoc, map_bytes_ser. split; [reflexivity|]. split; [|exact K].
      unfold blen in *. cbn [length]. lia.
    + rewrite app_length in Hf. pose proof (ser_pairs_nonempty l) as G. destruct (ser_pairs l); [contradiction|]. cbn [length] in Hf. lia.
Qed.

(** ** Whole PSBTs *)

Lemma deserialize_says bs e : psbt_deserialize bs = Err e -> psbt_says feat_sp bs e.
Proof.
  intros H. destruct (bytes_eqb (firstn 4 bs) MAGIC_BYTES) eqn:E1.
  2:{ unfold psbt_deserialize in H. rewrite E1 in H. cbn [negb fail_if bind] in H. injection H as <-.
      intros t ->. cbn in E1. discriminate. }
  destruct (bytes_eqb (firstn 1 (skipn 4 bs)) [PSBT_SEPARATOR]) eqn:E2.
  2:{ unfold psbt_deserialize in H. rewrite E1, E2 in H. cbn [negb fail_if bind] in H. injection H as <-.
      exists (skipn 4 bs). apply bytes_eqb_eq in E1. split.
      - rewrite <- (firstn_skipn 4 bs) at 1. now rewrite E1.
      - intros t' E. rewrite E in E2. discriminate. }
  rewrite (head_split _ E1 E2) in H. pose proof (head_split _ E1 E2) as E. rewrite E. set (d := skipn 5 bs) in *. clearbody d. clear E1 E2 E bs.
  rewrite deserialize_head in H.
  apply bind_err in H as [H|([g d1] & H1 & H)].
  { apply map_err_err in H as (e' & H & ->). exists d. split; [reflexivity|]. now apply global_decode_says. }
  apply map_err_ok in H1. apply global_decode_iff in H1 as (lg & -> & A1). destruct (global_counts_origin _ _ A1) as [C1 C2].
  apply bind_err in H as [H|([] & _ & H)]; [destruct (_ <=? _); discriminate|].
  apply bind_err in H as [H|([is d2] & H2 & H)].
  { apply map_err_err in H as (e' & H & ->). apply (dec_maps_err _ _ _ input_decode_iff) in H as (ls & d' & -> & B & K); [|lia].
    exists lg, ls, d', (g_input_count g). rewrite map_bytes_ser. split; [reflexivity|]. split; [exact C1|]. split; [exact B|].
    now apply input_decode_says. }
  apply map_err_ok in H2. apply input_maps in H2 as (lis & -> & A2 & N2).
  apply bind_err in H as [H|([] & _ & H)]; [destruct (_ <=? _); discriminate|].
  apply bind_err in H as [H|([os d3] & _ & H)]; [|discriminate].
  apply map_err_err in H as (e' & H & ->). apply (dec_maps_err _ _ _ output_decode_iff) in H as (ls & d' & -> & B & K); [|lia].
  exists lg, lis, ls, d', (g_input_count g), (g_output_count g). rewrite map_bytes_ser, !maps_bytes_ser. split; [reflexivity|].
  split; [exact C1|]. split; [|split; [exact C2|split; [exact B|now apply output_decode_says]]].
  rewrite N2. unfold blen. now rewrite (F2_length _ _ _ A2).
Qed.

(** ** Version 0 *)

(** The errors that the shapes of version 0 give. *)
Definition shape0 (sh : shape) : bool :=
  match sh with
  | HShare _ _ | HFixed _ | HSilent _ | HVersion | HCount | HXpub | HProp true => false
  | _ => true
  end.
Lemma refused_means0 sh l p e : shape0 sh = true -> refused sh l p e -> means0 e (err0_of_ierr e).
Proof.
  intros S0 R. unfold refused in R. cbv zeta in R. destruct sh; cbn [shape0] in S0; try discriminate S0;
    repeat match goal with
    | H : _ \/ _ |- _ => destruct H
    | H : _ /\ _ |- _ => destruct H
    | H : exists _, _ |- _ => destruct H
    | own : bool |- _ => destruct own; [discriminate S0|]
    end; subst e; cbn; auto; try (split; [discriminate|reflexivity]).
  all: match goal with H : propkey_try_from _ = _ |- _ => idtac | _ => discriminate end.
Qed.
Lemma global0_shape0 t : shape0 (global0_shape t) = true.
Proof. destruct t; reflexivity. Qed.
Lemma input0_shape0 t : shape0 (input0_shape t) = true.
Proof. destruct t; reflexivity. Qed.
Lemma output0_shape0 t : shape0 (output0_shape t) = true.
Proof. destruct t; reflexivity. Qed.

Lemma map0_err {S} (ins : pair -> S -> res ierr S) sh init bs e fuel :
  (forall t, shape0 (sh t) = true) ->
  (forall l p s e, ins_all ins l init = Ok s -> ins p s = Err e -> refused (sh (k_type (p_key p))) l p e) ->
  (length bs < fuel)%nat ->
  dec_map (fun p s => map_err err0_of_ierr (ins p s)) err0_of_serr fuel init bs = Err e -> map0_says sh bs e.
Proof.
  intros S0 R Hf H. apply dec_map_err in H as [(l & p & r & s & e' & -> & H1 & H2 & ->)|(s & B & ->)]; [| |exact Hf].
  - left. exists e'. pose proof (R _ _ _ _ H1 H2) as R0. split; [|exact (refused_means0 _ _ _ _ (S0 _) R0)].
    exists l, p, r. split; [reflexivity|exact R0].
  - right. eauto.
Qed.
Lemma input0_decode_says bs e : input0_decode bs = Err e -> map0_says input0_shape bs e.
Proof. intros H. exact (map0_err _ input0_shape _ _ _ _ input0_shape0 i0_refused (Nat.lt_succ_diag_r _) H). Qed.
Lemma output0_decode_says bs e : output0_decode bs = Err e -> map0_says output0_shape bs e.
Proof. intros H. exact (map0_err _ output0_shape _ _ _ _ output0_shape0 o0_refused (Nat.lt_succ_diag_r _) H). Qed.

Lemma g0_has_tx l d t : ins_all global0_insert_pair l gdec0_init = Ok d -> gd0_tx d = Some t -> has_tx l t.
Proof.
  intros H E. pose proof (frame_fields _ g0get g0set g0field_dec g0upd g0slot _ g0frame _ _ _ H G0Tx) as Q. cbn [g0upd g0get] in Q.
  rewrite E in Q. change (gd0_tx gdec0_init) with (@None tx) in Q.
  assert (T : forall q, In q (filter (of_slot g0field_dec g0slot G0Tx) l) -> In q l /\ k_type (p_key q) = x00).
  { intros q Hq. apply filter_In in Hq as [Hq Hs]. apply of_slot_true in Hs. apply g0slot_G0Tx in Hs. split; [exact Hq|now symmetry]. }
  destruct (filter _ l) as [|q m]; [discriminate|]. cbn [ins_all] in Q. binds Q.
  destruct (T q (or_introl eq_refl)) as [Hq Tq]. exists q. split; [exact Hq|].
  unfold g0ins_tx in Hx. destruct (is_empty (k_data (p_key q))) eqn:Ed; [|discriminate]. cbn [is_none is_some negb] in Hx.
  binds Hx. inj Hx. apply is_empty_nil in Ed. split; [destruct (p_key q); cbn in *; congruence|].
  apply map_err_ok in Hx0. rewrite Hx0. f_equal.
  destruct m as [|q' m]; cbn [ins_all] in Q; [congruence|]. binds Q. unfold g0ins_tx in Hx.
  destruct (is_empty _); [|discriminate]. cbn [is_none is_some negb] in Hx. discriminate.
Qed.
Lemma g0_lacks_tx l d : ins_all global0_insert_pair l gdec0_init = Ok d -> gd0_tx d = None -> lacks l x00.
Proof.
  intros H E. refine (frame_lacks _ g0get g0set g0field_dec g0upd g0slot _ g0frame G0Tx x00 is_some l _ _ _ g0slot_G0Tx H _).
  - cbn [g0upd g0ty]. unfold g0ins_tx. intros p a a' G. destruct (is_empty _); [|discriminate]. destruct (is_none a); [|discriminate].
    binds G. now inj G.
  - cbn [g0get]. now rewrite E.
Qed.

Lemma tx_checks_says l e : Forall (fun i => ti_witness i = []) l -> unsigned_inputs_checks l = Err e ->
  e = E0UnsignedTxHasScriptSigs /\ exists i, In i l /\ ti_script_sig i <> [].
Proof.
  induction l as [|i l IH]; cbn [unsigned_inputs_checks]; [discriminate|]. intros W H. apply Forall_cons_iff in W as [W1 W2].
  apply bind_err in H as [H|([] & _ & H)].
  { apply fail_if_err in H as [H <-]. split; [reflexivity|]. exists i. split; [now left|]. intros E. rewrite E in H. discriminate. }
  rewrite W1 in H. cbn [is_empty negb fail_if bind] in H. destruct (IH W2 H) as (-> & j & Hj & K). split; [reflexivity|].
  exists j. split; [now right|exact K].
Qed.

Lemma deserialize0_says bs e : psbt0_deserialize bs = Err e -> psbt0_says bs e.
Proof.
  intros H. unfold psbt0_says. destruct (bytes_eqb (firstn 4 bs) MAGIC_BYTES) eqn:E1.
  2:{ unfold psbt0_deserialize in H. rewrite E1 in H. cbn [negb fail_if bind] in H. injection H as <-. left.
      split; [reflexivity|]. intros t ->. cbn in E1. discriminate. }
  destruct (bytes_eqb (firstn 1 (skipn 4 bs)) [PSBT_SEPARATOR]) eqn:E2.
  2:{ unfold psbt0_deserialize in H. rewrite E1, E2 in H. cbn [negb fail_if bind] in H. injection H as <-. right. left.
      split; [reflexivity|]. exists (skipn 4 bs). apply bytes_eqb_eq in E1. split.
      - rewrite <- (firstn_skipn 4 bs) at 1. now rewrite E1.
      - intros t' E. rewrite E in E2. discriminate. }
  do 2 right.
  rewrite (head_split _ E1 E2) in H. pose proof (head_split _ E1 E2) as E. rewrite E. set (d := skipn 5 bs) in *. clearbody d. clear E1 E2 E bs.
  rewrite deserialize0_head in H.
  apply bind_err in H as [H|([g d1] & H1 & H)].
  { left. unfold global0_decode in H. pose proof (split_limit_app MAX_VEC_SIZE d) as E.
    assert (Q : snd (split_limit MAX_VEC_SIZE d) = [] \/ blen (fst (split_limit MAX_VEC_SIZE d)) = MAX_VEC_SIZE).
    { clear. generalize MAX_VEC_SIZE. intros n. unfold split_limit. destruct (_ <=? _) eqn:E; cbn [fst snd]; [now left|right].
      apply N.leb_gt in E. unfold blen in *. rewrite firstn_length. lia. }
    destruct (split_limit MAX_VEC_SIZE d) as [lim behind]. cbn [fst snd] in *. exists lim, behind. rewrite E. split; [reflexivity|].
    split; [exact Q|]. apply bind_err in H as [H|([s r] & H & K)].
    - left. exact (map0_err _ global0_shape _ _ _ _ global0_shape0 g0_refused (Nat.lt_succ_diag_r _) H).
    - right. apply dec_map_iff in H as (l & -> & _ & H). apply bind_err in K as [K|(t & _ & K)]; [|discriminate].
      apply ok_or_err in K as [K <-]. split; [reflexivity|]. exists l, r. rewrite map_bytes_ser. split; [reflexivity|].
      exact (g0_lacks_tx _ _ H K). }
  right. apply global0_decode_iff in H1 as (_ & _ & lg & -> & A1).
  assert (Ht : has_tx lg (p0_unsigned_tx g)). { destruct A1 as (_ & _ & v & A1 & _). exact (g0_has_tx _ _ _ A1 eq_refl). }
  apply bind_err in H as [H|([] & _ & H)].
  { left. exists lg, d1, (p0_unsigned_tx g). rewrite map_bytes_ser. split; [reflexivity|]. split; [exact Ht|].
    apply tx_checks_says; [|exact H]. destruct Ht as (q & _ & _ & Ht). now apply de_unsigned_tx_inv in Ht. }
  right. apply bind_err in H as [H|([is d2] & H2 & H)].
  { left. apply (dec_maps_err _ _ _ input0_decode_iff) in H as (ls & d' & -> & B & K); [|lia].
    exists lg, ls, d', (p0_unsigned_tx g). rewrite map_bytes_ser. split; [reflexivity|]. split; [exact Ht|]. split; [exact B|].
    now apply input0_decode_says. }
  right. apply input0_maps in H2 as (lis & -> & A2 & N2).
  apply bind_err in H as [H|([os d3] & _ & H)]; [|discriminate].
  apply (dec_maps_err _ _ _ output0_decode_iff) in H as (ls & d' & -> & B & K); [|lia].
  exists lg, lis, ls, d', (p0_unsigned_tx g). rewrite map_bytes_ser, !maps_bytes_ser. split; [reflexivity|].
  split; [exact Ht|]. split; [|split; [exact B|now apply output0_decode_says]].
  rewrite N2. unfold blen. now rewrite (F2_length _ _ _ A2).
Qed.

End Facts.

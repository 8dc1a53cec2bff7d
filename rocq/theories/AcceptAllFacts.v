(** Which byte strings the decoders accept. *)
From Coq Require Import List.
From Verif Require Import Base OMap Consensus ConsensusFacts Ext Raw RawFacts TapTree TapTreeFacts
  Serialize SerializeFacts MapCodec MapFacts V2Global V2Input V2InputFacts V2GlobalFacts V2Output V2OutputFacts
  V2Psbt V2PsbtFacts V2CodecFacts V2WireFacts V2PairFacts SpecCodec SpecCodecFacts SpecPsbt SpecPsbt0
  V0Error V0Input V0Output V0Psbt V0GlobalFacts V0InputFacts V0OutputFacts V0PsbtFacts V0WireFacts SpecErrors ErrorFacts
  DecodeErrorFacts SpecAccept AcceptFacts AcceptMapFacts.
Local Open Scope N_scope.

Lemma has_type_dec l t : has_type l t \/ lacks l t.
Proof.
  induction l as [|p l IH]; [right; intros q []|]. destruct (beq (k_type (p_key p)) t) eqn:E.
  - left. exists p. split; [now left|now apply beq_eq].
  - destruct IH as [(q & H & T)|IH]; [left; exists q; split; [now right|exact T]|]. right. intros q [<-|Hq]; [|now apply IH].
    intros <-. now rewrite beq_refl in E.
Qed.
Lemma has_type_lacks l t : has_type l t -> lacks l t -> False.
Proof. intros (q & H & T) K. exact (K q H T). Qed.
Lemma has_other_dec l t w : has_other l t w \/ lacks_but l t w.
Proof.
  induction l as [|p l IH]; [right; intros q []|].
  destruct IH as [(q & H & T)|IH]; [left; exists q; split; [now right|exact T]|].
  destruct (beq (k_type (p_key p)) t) eqn:E; [apply beq_eq in E; destruct (bytes_eqb (p_value p) w) eqn:V|].
  - apply bytes_eqb_eq in V. right. intros q [<-|Hq]; [auto|now apply IH].
  - left. exists p. split; [now left|]. split; [exact E|]. intros K. rewrite K, bytes_eqb_refl in V. discriminate V.
  - right. intros q [<-|Hq]; [|now apply IH]. intros T. rewrite T, beq_refl in E. discriminate E.
Qed.
Lemma has_other_lacks l t w : has_other l t w -> lacks_but l t w -> False.
Proof. intros (q & H & T & V) K. exact (V (K q H T)). Qed.

Section Facts.
Context `{X : Ext} {L : ExtLaws X} `{C : Cfg}.

Section Frame.
Context {F St : Type} (fty : F -> Type) (get : forall f, St -> fty f) (set : forall f, fty f -> St -> St)
  (Fdec : forall a b : F, {a = b} + {a <> b}) (upd : forall f, pair -> fty f -> res ierr (fty f)) (slot : byte -> F)
  (ins : pair -> St -> res ierr St) (O : frame_ok fty get set upd slot ins).

Lemma frame_type f t (P : fty f -> bool) l s s' :
  (forall p a a', upd f p a = Ok a' -> P a' = true) -> (forall b, t = b <-> slot b = f) -> P (get f s) = false ->
  ins_all ins l s = Ok s' -> (P (get f s') = true <-> has_type l t).
Proof.
  intros HP E P0 H. split.
  - intros Q. destruct (has_type_dec l t) as [K|K]; [exact K|].
    now destruct (frame_has fty get set Fdec upd slot ins O f t P l s s' E P0 H Q).
  - intros K. destruct (P (get f s')) eqn:Q; [reflexivity|]. exfalso.
    exact (has_type_lacks _ _ K (frame_lacks fty get set Fdec upd slot ins O f t P l s s' HP E H Q)).
Qed.

Lemma place_left {A} (isp : A -> bool) de w : (forall v a, de v = Ok a -> v = w -> isp a = true) ->
  forall l a a', (forall q, In q l -> p_value q = w) -> ins_all (ins_placeholder isp de) l a = Ok a' -> isp a = true -> isp a' = true.
Proof.
  intros D. induction l as [|p l IH]; intros a a' V H I; cbn [ins_all] in H; [inj H; exact I|]. binds H.
  apply (IH _ _ (fun q Hq => V q (or_intror Hq)) H). unfold ins_placeholder in Hx. rewrite I in Hx. cbn [negb] in Hx.
  apply map_err_ok in Hx. apply (D _ _ Hx). apply V. now left.
Qed.
Lemma frame_other f t (isp : fty f -> bool) de w l s s' :
  upd f = ins_placeholder isp de -> (forall b, t = b <-> slot b = f) ->
  (forall v a, de v = Ok a -> (isp a = true <-> v = w)) -> isp (get f s) = true ->
  ins_all ins l s = Ok s' -> (isp (get f s') = false <-> has_other l t w).
Proof.
  intros U E D I H. split.
  - intros Q. destruct (has_other_dec l t w) as [K|K]; [exact K|]. exfalso.
    pose proof (frame_fields fty get set Fdec upd slot ins O l _ _ H f) as R. rewrite U in R.
    pose proof (place_left isp de w (fun v a Dv => proj2 (D v a Dv)) (filter (of_slot Fdec slot f) l) (get f s) (get f s')) as Z.
    rewrite Z in Q; [discriminate| |exact R|exact I].
    intros q Hq. apply filter_In in Hq as [Hq T]. apply of_slot_true, E in T. apply K; [exact Hq|now symmetry].
  - intros K. destruct (isp (get f s')) eqn:Q; [exfalso|reflexivity].
    refine (has_other_lacks _ _ _ K (frame_but fty get set Fdec upd slot ins O f t isp de w l s s' U E (fun v a Dv => proj1 (D v a Dv)) H Q)).
Qed.
End Frame.

(** ** What is there after the last pair *)
Lemma one_of_two (A B : Prop) (a b : bool) : (a = true <-> A) -> (b = true <-> B) -> ((A <-> B) <-> Bool.eqb a b = true).
Proof. intros. destruct a, b; cbn; intuition discriminate. Qed.

Lemma last_count_cons_other p l t n : k_type (p_key p) <> t -> (last_count (p :: l) t n <-> last_count l t n).
Proof.
  intros T. unfold last_count. cbn [filter]. destruct (beq (k_type (p_key p)) t) eqn:E; [apply beq_eq in E; contradiction|]. reflexivity.
Qed.
Lemma lacks_cons p l t : lacks (p :: l) t <-> k_type (p_key p) <> t /\ lacks l t.
Proof.
  split.
  - intros K. split; [apply K; now left|]. intros q Hq. apply K. now right.
  - intros [K1 K2] q [<-|Hq]; auto.
Qed.
Lemma lacks_filter l t : lacks l t <-> filter (fun q => beq (k_type (p_key q)) t) l = [].
Proof.
  induction l as [|p l IH]; [split; [reflexivity|intros _ q []]|]. rewrite lacks_cons. cbn [filter].
  destruct (beq (k_type (p_key p)) t) eqn:E.
  - apply beq_eq in E. split; [intros [K _]; contradiction|discriminate].
  - rewrite <- IH. split; [tauto|]. intros K. split; [|exact K]. intros T. rewrite T, beq_refl in E. discriminate.
Qed.
Lemma last_count_cons p l t n : k_type (p_key p) = t ->
  (last_count (p :: l) t n <-> last_count l t n \/ (lacks l t /\ exists c x, compact_size n c /\ p_value p = c ++ x)).
Proof.
  intros T. rewrite lacks_filter. unfold last_count. cbn [filter]. rewrite T, beq_refl. split.
  - intros (ps & q & c & x & E & K). destruct ps as [|q' ps]; cbn in E.
    + injection E as -> E. right. split; [exact E|]. eauto.
    + injection E as <- E. left. exists ps, q, c, x. auto.
  - intros [(ps & q & c & x & E & K)|(E & c & x & K)].
    + exists (p :: ps), q, c, x. rewrite E. auto.
    + rewrite E. exists [], p, c, x. auto.
Qed.

Lemma counts_last l : forall c c', ins_all gcounts_upd l c = Ok c' ->
  Forall (fun q => x04 = k_type (p_key q) \/ x05 = k_type (p_key q)) l ->
  (forall n, fst c' = Some n <-> last_count l x04 n \/ (lacks l x04 /\ fst c = Some n))
  /\ (forall n, snd c' = Some n <-> last_count l x05 n \/ (lacks l x05 /\ snd c = Some n)).
Proof.
  induction l as [|p l IH]; intros c c' H T; cbn [ins_all] in H.
  - inj H. assert (N : forall t n, ~ last_count [] t n) by (intros t n (ps & p & _ & _ & E & _); cbn in E; now destruct ps).
    assert (K : forall t, lacks [] t) by (intros t q []).
    split; intros n; specialize (N x04 n) as N4; specialize (N x05 n) as N5; pose proof (K x04); pose proof (K x05); tauto.
  - binds H. apply Forall_cons_iff in T as [Tp T]. destruct (IH _ _ H T) as [I1 I2]. clear IH H.
    unfold gcounts_upd, ptype in Hx. destruct Tp as [Tp|Tp].
    + rewrite <- Tp in Hx. change (beq x04 x04) with true in Hx. cbv iota in Hx. unfold gins_input_count in Hx.
      destruct (is_empty _); [|discriminate]. destruct (is_none _); [|discriminate].
      apply bind_ok in Hx as ([n r] & E & Hx). apply map_err_ok in E. apply dec_varint_spec in E as (c1 & E1 & E2). injection Hx as <- <-. cbn [fst snd] in *. split.
      * intros m. rewrite I1, last_count_cons, lacks_cons by now symmetry. split.
        -- intros [K|[K1 K2]]; [auto|]. inj K2. left. right. split; [exact K1|]. eauto.
        -- intros [[K|(K1 & c2 & x2 & K2 & K3)]|[[K _] _]]; [auto| |now destruct K].
           right. split; [exact K1|]. assert (dec_varint (p_value p) = Ok (n, r)) as D1 by (apply dec_varint_spec; eauto).
           assert (dec_varint (p_value p) = Ok (m, x2)) as D2 by (apply dec_varint_spec; eauto). congruence.
      * intros m. rewrite I2, lacks_cons, last_count_cons_other by (rewrite <- Tp; discriminate). rewrite <- Tp. assert (x04 <> x05) by discriminate. tauto.
    + rewrite <- Tp in Hx. change (beq x05 x04) with false in Hx. cbv iota in Hx. unfold gins_output_count in Hx.
      destruct (is_empty _); [|discriminate]. destruct (is_none _); [|discriminate].
      apply bind_ok in Hx as ([n r] & E & Hx). apply map_err_ok in E. apply dec_varint_spec in E as (c1 & E1 & E2). injection Hx as <- <-. cbn [fst snd] in *. split.
      * intros m. rewrite I1, lacks_cons, last_count_cons_other by (rewrite <- Tp; discriminate). rewrite <- Tp. assert (x05 <> x04) by discriminate. tauto.
      * intros m. rewrite I2, last_count_cons, lacks_cons by now symmetry. split.
        -- intros [K|[K1 K2]]; [auto|]. inj K2. left. right. split; [exact K1|]. eauto.
        -- intros [[K|(K1 & c2 & x2 & K2 & K3)]|[[K _] _]]; [auto| |now destruct K].
           right. split; [exact K1|]. assert (dec_varint (p_value p) = Ok (n, r)) as D1 by (apply dec_varint_spec; eauto).
           assert (dec_varint (p_value p) = Ok (m, x2)) as D2 by (apply dec_varint_spec; eauto). congruence.
Qed.

Lemma last_count_filter (f : pair -> bool) l t n : (forall q, k_type (p_key q) = t -> f q = true) ->
  (last_count (filter f l) t n <-> last_count l t n).
Proof.
  intros H. unfold last_count. enough (filter (fun q => beq (k_type (p_key q)) t) (filter f l) = filter (fun q => beq (k_type (p_key q)) t) l) as -> by reflexivity.
  induction l as [|p l IH]; [reflexivity|]. cbn [filter]. destruct (f p) eqn:E; cbn [filter]; rewrite IH; [reflexivity|].
  destruct (beq (k_type (p_key p)) t) eqn:T; [|reflexivity]. apply beq_eq in T. apply H in T. congruence.
Qed.

Lemma global_counts l d : ins_all global_insert_pair l gdec_init = Ok d ->
  forall ni no, gd_counts d = (Some ni, Some no) <-> last_count l x04 ni /\ last_count l x05 no.
Proof.
  intros H ni no.
  pose proof (frame_fields _ gget gset gfield_dec gupd gslot _ gframe _ _ _ H GCounts) as Q. cbn [gupd gget] in Q.
  assert (T : Forall (fun q => x04 = k_type (p_key q) \/ x05 = k_type (p_key q)) (filter (of_slot gfield_dec gslot GCounts) l)).
  { apply Forall_forall. intros q Hq. apply filter_In in Hq as [_ Hq]. apply of_slot_true in Hq. now apply gslot_GCounts. }
  destruct (counts_last _ _ _ Q T) as [I1 I2]. specialize (I1 ni). specialize (I2 no).
  rewrite last_count_filter in I1 by (intros q E; apply of_slot_true, gslot_GCounts; left; unfold ptype; now symmetry).
  rewrite last_count_filter in I2 by (intros q E; apply of_slot_true, gslot_GCounts; right; unfold ptype; now symmetry).
  cbn [gdec_init gd_counts fst snd] in I1, I2. destruct (gd_counts d) as [a b]. cbn [fst snd] in I1, I2. split.
  - intros E. injection E as -> ->. intuition discriminate.
  - intros [E1 E2]. f_equal; [apply I1|apply I2]; auto.
Qed.

Lemma count_u64 l t n : last_count l t n -> n < U64.
Proof.
  intros (_ & _ & c & _ & _ & H & _). assert (dec_varint (c ++ []) = Ok (n, [])) as D by (apply dec_varint_spec; eauto).
  apply dec_varint_canon in D as [_ D]. exact D.
Qed.

Lemma global_done l d : ins_all global_insert_pair l gdec_init = Ok d ->
  forall ni no, (exists g, global_check d = Ok g /\ g_input_count g = ni /\ g_output_count g = no)
  <-> has_type l xfb /\ has_type l x02 /\ last_count l x04 ni /\ last_count l x05 no
      /\ (feat_sp = true -> (has_type l x07 <-> has_type l x08)).
Proof.
  intros H ni no. pose proof (global_counts l d H ni no) as Cn.
  assert (V : is_some (gd_version d) = true <-> has_type l xfb).
  { apply (frame_type _ gget gset gfield_dec gupd gslot _ gframe GVersion xfb is_some l gdec_init d); [|exact gslot_GVersion|reflexivity|exact H].
    cbn [gupd gty]. unfold gins_version. intros p a a' G. destruct (is_empty _); [|discriminate]. destruct (is_none _); [|discriminate].
    binds G. now inj G. }
  assert (V2 : is_some (gd_tx_version d) = true <-> has_type l x02).
  { apply (frame_type _ gget gset gfield_dec gupd gslot _ gframe GTxVersion x02 is_some l gdec_init d); [|exact gslot_GTxVersion|reflexivity|exact H].
    cbn [gupd gty]. unfold gins_u32. intros p a a' G. destruct (is_empty _); [|discriminate]. destruct (is_none _); [|discriminate].
    binds G. now inj G. }
  assert (T : feat_sp = true -> ((has_type l x07 <-> has_type l x08) <-> (gd_sp_ecdh_shares d = [] <-> gd_sp_dleq_proofs d = []))).
  { intros F.
    pose proof (frame_type _ gget gset gfield_dec gupd gslot _ gframe GSpEcdhShares x07 (fun m => negb (is_empty m)) l gdec_init d (fun p a a' => ins_sp_fills _ _ _ _ _) (fun b => gslot_GSpEcdhShares b F) eq_refl H) as B1.
    pose proof (frame_type _ gget gset gfield_dec gupd gslot _ gframe GSpDleqProofs x08 (fun m => negb (is_empty m)) l gdec_init d (fun p a a' => ins_sp_fills _ _ _ _ _) (fun b => gslot_GSpDleqProofs b F) eq_refl H) as B2.
    cbn [gget] in B1, B2. rewrite <- B1, <- B2. destruct (gd_sp_ecdh_shares d), (gd_sp_dleq_proofs d); cbn; intuition discriminate. }
  split.
  - intros (g & K & <- & <-). apply global_check_iff in K as (v & tv & ic & oc & E1 & E2 & E3 & W1 & W2 & E4 & ->).
    cbn [g_input_count g_output_count] in *. rewrite E1 in V. rewrite E2 in V2. cbn [is_some] in V, V2. apply Cn in E3 as [E3 E3'].
    split; [now apply V|]. split; [now apply V2|]. split; [exact E3|]. split; [exact E3'|]. intros F. apply (T F). auto.
  - intros (K1 & K2 & K3 & K4 & K5). apply V in K1. apply V2 in K2. destruct (gd_version d) as [v|] eqn:E1; [|discriminate].
    destruct (gd_tx_version d) as [tv|] eqn:E2; [|discriminate].
    eexists. split; [apply global_check_iff; exists v, tv, ni, no; repeat (split; [eassumption||reflexivity|])|].
    + split; [now apply Cn|]. split; [now apply count_u64 in K3|]. split; [now apply count_u64 in K4|]. split; [|reflexivity].
      intros F. apply (T F). auto.
    + split; reflexivity.
Qed.

Lemma input_done l i : ins_all input_insert_pair l input_invalid = Ok i ->
  (input_check i = Ok i <-> has_other l x0e (repeat x00 32) /\ has_other l x0f [xff; xff; xff; xff]
    /\ (feat_sp = true -> (has_type l x1d <-> has_type l x1e))).
Proof.
  intros H.
  pose proof (frame_other _ iget iset ifield_dec iupd islot _ iframe IPreviousTxid x0e (bytes_eqb TXID_ZERO) _ _ l input_invalid i eq_refl islot_IPreviousTxid zero_txid eq_refl H) as A1.
  pose proof (frame_other _ iget iset ifield_dec iupd islot _ iframe ISpentOutputIndex x0f (N.eqb U32_MAX) _ _ l input_invalid i eq_refl islot_ISpentOutputIndex max_index eq_refl H) as A2.
  rewrite <- A1, <- A2. cbn [iget]. unfold input_check.
  assert (T : feat_sp = true -> ((has_type l x1d <-> has_type l x1e) <-> Bool.eqb (is_empty (in_sp_ecdh_shares i)) (is_empty (in_sp_dleq_proofs i)) = true)).
  { intros F.
    pose proof (frame_type _ iget iset ifield_dec iupd islot _ iframe ISpEcdhShares x1d (fun m => negb (is_empty m)) l input_invalid i (fun p a a' => ins_sp_fills _ _ _ _ _) (fun b => islot_ISpEcdhShares b F) eq_refl H) as B1.
    pose proof (frame_type _ iget iset ifield_dec iupd islot _ iframe ISpDleqProofs x1e (fun m => negb (is_empty m)) l input_invalid i (fun p a a' => ins_sp_fills _ _ _ _ _) (fun b => islot_ISpDleqProofs b F) eq_refl H) as B2.
    cbn [iget] in B1, B2. rewrite (one_of_two _ _ _ _ B1 B2). destruct (is_empty (in_sp_ecdh_shares i)), (is_empty (in_sp_dleq_proofs i)); cbn; tauto. }
  assert (S1 : bytes_eqb (in_previous_txid i) TXID_ZERO = bytes_eqb TXID_ZERO (in_previous_txid i)).
  { clear. generalize (in_previous_txid i). intros b. destruct (bytes_eqb TXID_ZERO b) eqn:E; [apply bytes_eqb_eq in E; rewrite <- E; apply bytes_eqb_refl|].
    destruct (bytes_eqb b TXID_ZERO) eqn:E2; [|reflexivity]. apply bytes_eqb_eq in E2. rewrite E2, bytes_eqb_refl in E. discriminate. }
  rewrite S1, (N.eqb_sym (in_spent_output_index i)).
  destruct (bytes_eqb TXID_ZERO _); cbn [fail_if bind]; [split; [discriminate|intros (K & _); discriminate K]|].
  destruct (N.eqb U32_MAX _); cbn [fail_if bind]; [split; [discriminate|intros (_ & K & _); discriminate K]|].
  destruct feat_sp; cbn [andb].
  - specialize (T eq_refl). rewrite T. destruct (Bool.eqb _ _); cbn [negb fail_if bind]; split; auto; [discriminate|].
    intros (_ & _ & K). now specialize (K eq_refl).
  - cbn [fail_if bind]. split; auto. intros _. repeat split; discriminate.
Qed.

Lemma label_fills p a a' : ins_sp_v0_label p a = Ok a' -> is_some a' = true.
Proof. unfold ins_sp_v0_label. intros G. binds G. now inj G. Qed.
Lemma info_fills p a a' : ins_sp_v0_info p a = Ok a' -> is_some a' = true.
Proof. unfold ins_sp_v0_info. intros G. binds G. now inj G. Qed.
Lemma output_done l o : ins_all output_insert_pair l output_invalid = Ok o ->
  (output_check o = Ok o <-> has_other l x03 (repeat x00 8) /\ (feat_sp = false -> has_other l x04 [])
    /\ (feat_sp = true -> has_type l x0a -> has_type l x09)).
Proof.
  intros H.
  pose proof (frame_other _ oget oset ofield_dec oupd oslot _ oframe OAmount x03 (fun a => a =? 0) _ _ l output_invalid o eq_refl oslot_OAmount zero_amount eq_refl H) as A1.
  pose proof (frame_other _ oget oset ofield_dec oupd oslot _ oframe OScriptPubkey x04 is_empty _ _ l output_invalid o eq_refl oslot_OScriptPubkey empty_script eq_refl H) as A2.
  rewrite <- A1, <- A2. cbn [oget]. unfold output_check.
  assert (T : feat_sp = true -> ((has_type l x0a -> has_type l x09) <-> is_some (out_sp_v0_label o) && is_none (out_sp_v0_info o) = false)).
  { intros F.
    pose proof (frame_type _ oget oset ofield_dec oupd oslot _ oframe OSpLabel x0a is_some l output_invalid o label_fills (fun b => oslot_OSpLabel b F) eq_refl H) as B1.
    pose proof (frame_type _ oget oset ofield_dec oupd oslot _ oframe OSpInfo x09 is_some l output_invalid o info_fills (fun b => oslot_OSpInfo b F) eq_refl H) as B2.
    cbn [oget] in B1, B2. rewrite <- B1, <- B2. destruct (out_sp_v0_label o), (out_sp_v0_info o); cbn; intuition discriminate. }
  destruct (out_amount o =? 0); cbn [fail_if bind]; [split; [discriminate|intros (K & _); discriminate K]|].
  destruct feat_sp; cbn [andb negb].
  - specialize (T eq_refl). cbn [fail_if bind]. rewrite T. destruct (is_some _ && is_none _); cbn [fail_if bind]; split; auto; [discriminate| |].
    + intros (_ & _ & K). now specialize (K eq_refl).
    + intros _. repeat split; discriminate.
  - destruct (is_empty _); cbn [fail_if bind]; split; auto; [discriminate| |].
    + intros (_ & K & _). now specialize (K eq_refl).
    + intros _. repeat split; discriminate.
Qed.

Lemma sizes_wf l : sizes l <-> Forall wf_pair l.
Proof. split; apply Forall_impl; intros p H; exact H. Qed.
Lemma sizes_wfs ls : Forall sizes ls <-> Forall (Forall wf_pair) ls.
Proof. split; apply Forall_impl; intros l; apply sizes_wf. Qed.

Lemma fine_acc {A} (acc : list pair -> A -> Prop) (fine : list pair -> Prop) :
  (forall l, sizes l -> ((exists a, acc l a) <-> fine l)) -> (forall l a, acc l a -> Forall wf_pair l) ->
  forall ls, (exists as_, Forall2 acc ls as_) <-> Forall sizes ls /\ Forall fine ls.
Proof.
  intros H W ls. split.
  - intros (as_ & K). induction K as [|l a ls as_ K _ [I1 I2]]; [split; constructor|].
    assert (S : sizes l) by now apply sizes_wf, (W _ _ K). split; constructor; auto. apply (H l S). eauto.
  - induction ls as [|l ls IH]; intros [S K]; [exists []; constructor|].
    apply Forall_cons_iff in S as [S1 S2], K as [K1 K2]. apply (H l S1) in K1 as (a & K1). destruct (IH (conj S2 K2)) as (as_ & K).
    exists (a :: as_). now constructor.
Qed.

Lemma input_fine_acc l : sizes l -> ((exists i, input_acc l i) <-> input_fine feat_sp l).
Proof.
  intros S. apply sizes_wf in S. unfold input_acc, input_fine. rewrite <- (i_readable l S). split.
  - intros (i & _ & H & K). split; [eauto|]. now apply (input_done l i H).
  - intros ((i & H) & K). exists i. split; [exact S|]. split; [exact H|]. now apply (input_done l i H).
Qed.
Lemma output_fine_acc l : sizes l -> ((exists i, output_acc l i) <-> output_fine feat_sp l).
Proof.
  intros S. apply sizes_wf in S. unfold output_acc, output_fine. rewrite <- (o_readable l S). split.
  - intros (i & _ & H & K). split; [eauto|]. now apply (output_done l i H).
  - intros ((i & H) & K). exists i. split; [exact S|]. split; [exact H|]. now apply (output_done l i H).
Qed.
Lemma input0_fine_acc l : sizes l -> ((exists i, input0_acc l i) <-> input0_fine l).
Proof.
  intros S. apply sizes_wf in S. unfold input0_acc, input0_fine. rewrite <- (i0_readable l S). split.
  - intros (i & _ & H). eauto.
  - intros (i & H). exists i. auto.
Qed.
Lemma output0_fine_acc l : sizes l -> ((exists i, output0_acc l i) <-> output0_fine l).
Proof.
  intros S. apply sizes_wf in S. unfold output0_acc, output0_fine. rewrite <- (o0_readable l S). split.
  - intros (i & _ & H). eauto.
  - intros (i & H). exists i. auto.
Qed.

Lemma last_has l t n : last_count l t n -> has_type l t.
Proof.
  intros (ps & p & c & x & E & _). exists p. assert (In p (ps ++ [p])) as H by (apply in_or_app; right; now left).
  rewrite <- E in H. apply filter_In in H as [H T]. split; [exact H|now apply beq_eq].
Qed.

Lemma global_fine_acc l ni no : sizes l ->
  ((exists g, global_acc l g /\ g_input_count g = ni /\ g_output_count g = no)
   <-> global_fine feat_sp l /\ last_count l x04 ni /\ last_count l x05 no).
Proof.
  intros S. apply sizes_wf in S. unfold global_acc, global_fine. rewrite <- (g_readable l S). split.
  - intros (g & (_ & d & H & K) & E1 & E2). destruct (proj1 (global_done l d H ni no)) as (A1 & A2 & A3 & A4 & A5); [eauto|].
    pose proof (last_has _ _ _ A3). pose proof (last_has _ _ _ A4). repeat split; eauto; now apply A5.
  - intros (((d & H) & A1 & A2 & _ & _ & A5) & A3 & A4). destruct (proj2 (global_done l d H ni no)) as (g & K & E1 & E2); [auto|].
    exists g. eauto 6.
Qed.

Lemma accept_v2 bs : (exists p, psbt_deserialize bs = Ok p) <-> psbt_format feat_sp size_input size_output bs.
Proof.
  split.
  - intros (p & H). apply deserialize_iff in H as (lg & lis & los & r & E & A1 & A2 & A3 & N1 & N2 & M1 & M2).
    assert (Sg : sizes lg) by (apply sizes_wf; apply A1).
    destruct (proj1 (fine_acc _ _ input_fine_acc (fun l a K => proj1 K) lis)) as [Si Fi]; [eauto|].
    destruct (proj1 (fine_acc _ _ output_fine_acc (fun l a K => proj1 K) los)) as [So Fo]; [eauto|].
    destruct (proj1 (global_fine_acc lg (g_input_count (p_global p)) (g_output_count (p_global p)) Sg)) as (Fg & C1 & C2); [eauto|].
    pose proof (F2_length _ _ _ A2) as Ei. pose proof (F2_length _ _ _ A3) as Eo.
    assert (Bi : blen lis = blen (p_inputs p)) by (unfold blen; now rewrite Ei).
    assert (Bo : blen los = blen (p_outputs p)) by (unfold blen; now rewrite Eo).
    exists lg, lis, los. eexists _, r. split; [rewrite E; rewrite !app_assoc; reflexivity|].
    split; [rewrite <- !app_assoc; apply psbt_wire_intro; [now apply sizes_wf|now apply sizes_wfs|now apply sizes_wfs]|].
    rewrite Bi, Bo, <- N1, <- N2. rewrite <- N1 in M1. rewrite <- N2 in M2. change ISIZE_MAX with (2 ^ 63 - 1) in *. repeat (split; [assumption || lia|]). lia.
  - intros (lg & lis & los & w & junk & -> & W & Sg & Si & So & Fg & Fi & Fo & C1 & C2 & M1 & M2).
    destruct (proj2 (fine_acc _ _ input_fine_acc (fun l a K => proj1 K) lis)) as (is & A2); [auto|].
    destruct (proj2 (fine_acc _ _ output_fine_acc (fun l a K => proj1 K) los)) as (os & A3); [auto|].
    destruct (proj2 (global_fine_acc lg (blen lis) (blen los) Sg)) as (g & A1 & E1 & E2); [auto|].
    pose proof (F2_length _ _ _ A2) as Ei. pose proof (F2_length _ _ _ A3) as Eo.
    exists (Psbt g is os). apply deserialize_iff. exists lg, lis, los, junk.
    apply psbt_wire_ser in W as (-> & _). split; [now rewrite <- !app_assoc|].
    assert (Bi : blen lis = blen is) by (unfold blen; now rewrite Ei).
    assert (Bo : blen los = blen os) by (unfold blen; now rewrite Eo).
    unfold accepted. cbn [p_global p_inputs p_outputs]. rewrite <- Bi, <- Bo. change ISIZE_MAX with (2 ^ 63 - 1). repeat (split; [assumption || lia|]). lia.
Qed.

Lemma tx0_there l s : ins_all global0_insert_pair l gdec0_init = Ok s ->
  forall t, gd0_tx s = Some t <-> has_tx l t.
Proof.
  intros H t. split; [now apply g0_has_tx|]. intros (p & Hp & Kp & Dp).
  pose proof (frame_fields _ g0get g0set g0field_dec g0upd g0slot _ g0frame _ _ _ H G0Tx) as Q. cbn [g0upd g0get] in Q.
  assert (In p (filter (of_slot g0field_dec g0slot G0Tx) l)) as Hf.
  { apply filter_In. split; [exact Hp|]. apply of_slot_true, g0slot_G0Tx. unfold ptype. now rewrite Kp. }
  change (gd0_tx gdec0_init) with (@None tx) in Q.
  destruct (filter _ l) as [|q m]; [destruct Hf|]. cbn [ins_all] in Q. binds Q. unfold g0ins_tx in Hx.
  destruct (is_empty _); [|discriminate]. cbn [is_none is_some negb] in Hx. binds Hx. inj Hx.
  destruct m as [|q' m]; cbn [ins_all] in Q.
  - inj Q. destruct Hf as [->|[]]. apply map_err_ok in Hx0. congruence.
  - binds Q. unfold g0ins_tx in Hx. destruct (is_empty _); discriminate.
Qed.

Lemma accept_v0 bs : (exists p, psbt0_deserialize bs = Ok p) <-> psbt0_format bs.
Proof.
  split.
  - intros (p & H). apply deserialize0_iff in H as (lg & lis & los & r & E & A1 & A2 & A3 & U & N1 & N2).
    destruct A1 as (Wg & Mg & v & G & _). assert (Sg : sizes lg) by now apply sizes_wf.
    destruct (proj1 (fine_acc _ _ input0_fine_acc (fun l a K => proj1 K) lis)) as [Si Fi]; [eauto|].
    destruct (proj1 (fine_acc _ _ output0_fine_acc (fun l a K => proj1 K) los)) as [So Fo]; [eauto|].
    pose proof (F2_length _ _ _ A2) as Ei. pose proof (F2_length _ _ _ A3) as Eo.
    exists lg, lis, los. eexists _, r, (ser_pairs lg), (p0_unsigned_tx p). split; [rewrite E; rewrite !app_assoc; reflexivity|].
    split; [rewrite <- !app_assoc; apply psbt_wire_intro; [exact Wg|now apply sizes_wfs|now apply sizes_wfs]|].
    repeat (split; [assumption|]). split; [now apply ser_pairs_spec|]. split; [exact Mg|]. split.
    { split; [apply (g0_readable lg Wg); eauto|]. split; [now apply (tx0_there lg _ G)|exact U]. }
    repeat (split; [assumption|]). rewrite N1, N2. unfold blen. rewrite Ei, Eo. auto.
  - intros (lg & lis & los & w & junk & wg & t & -> & W & Sg & Si & So & Wm & Mg & (R & Tx & U) & Fi & Fo & N1 & N2).
    destruct (proj2 (fine_acc _ _ input0_fine_acc (fun l a K => proj1 K) lis)) as (is & A2); [auto|].
    destruct (proj2 (fine_acc _ _ output0_fine_acc (fun l a K => proj1 K) los)) as (os & A3); [auto|].
    apply sizes_wf in Sg. apply (g0_readable lg Sg) in R as (s & G). apply (tx0_there lg s G) in Tx.
    pose proof (F2_length _ _ _ A2) as Ei. pose proof (F2_length _ _ _ A3) as Eo.
    exists (Psbt0 t (opt_default 0 (gd0_version s)) (gd0_xpub s) (gd0_proprietary s) (gd0_unknown s) is os).
    apply deserialize0_iff. exists lg, lis, los, junk.
    apply psbt_wire_ser in W as (-> & _). split; [now rewrite <- !app_assoc|].
    apply map_wire_ser in Wm. subst wg. split.
    { split; [exact Sg|]. split; [exact Mg|]. exists (gd0_version s). split; [|reflexivity]. cbn. rewrite G, <- Tx. now destruct s. }
    cbn [p0_unsigned_tx p0_inputs p0_outputs]. rewrite <- N1, <- N2. unfold blen. rewrite Ei, Eo. auto.
Qed.

End Facts.

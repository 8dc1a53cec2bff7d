(** The pairs of single fields and the formats of [SpecFields] and [SpecTx]. *)
From Verif Require Import Base OMap Consensus ConsensusFacts Ext Raw RawFacts TapTree Serialize SerializeFacts MapCodec
  SpecCodec SpecTx TxWireFacts V2Global V2Input V2Output V2Psbt SpecPsbt SpecFields.
Local Open Scope N_scope.

Section Facts.
Context `{X : Ext}.

Lemma in_opt {A} t (ser : A -> bytes) o p : In p (opt_pairs t ser o) <-> exists v, o = Some v /\ p = Pair (Key t []) (ser v).
Proof.
  destruct o as [v|]; cbn; split; try tauto.
  - intros [<-|[]]. eauto.
  - intros (w & E & ->). injection E as ->. auto.
  - intros (w & E & _). discriminate.
Qed.
Lemma in_map_pairs {K V} t (sk : K -> bytes) (sv : V -> bytes) m p :
  In p (map_pairs t sk sv m) <-> exists k v, In (k, v) m /\ p = Pair (Key t (sk k)) (sv v).
Proof.
  unfold map_pairs. rewrite in_map_iff. split.
  - intros ([k v] & <- & H). eauto.
  - intros (k & v & H & ->). exists (k, v). auto.
Qed.
Lemma in_prop m p : In p (prop_pairs m) <-> exists k v, In (k, v) m /\ p = field xfc (prop_key_bytes k) v.
Proof.
  unfold prop_pairs. rewrite in_map_iff. unfold field, prop_key_bytes, propkey_to_key, enc_propkey, enc_bytes. split.
  - intros ([k v] & <- & H). exists k, v. split; auto. cbn [fst snd]. now rewrite <- app_assoc.
  - intros (k & v & H & ->). exists (k, v). split; auto. cbn [fst snd]. now rewrite <- app_assoc.
Qed.
Lemma in_unknown m p : In p (unknown_pairs m) <-> exists k v, In (k, v) m /\ p = Pair k v.
Proof.
  unfold unknown_pairs. rewrite in_map_iff. split.
  - intros ([k v] & <- & H). eauto.
  - intros (k & v & H & ->). exists (k, v). auto.
Qed.
Lemma in_if (b : bool) (l : list pair) p : In p (if b then l else []) <-> b = true /\ In p l.
Proof. destruct b; cbn; intuition; discriminate. Qed.
Lemma in_one (p q : pair) : In p [q] <-> p = q.
Proof. cbn. intuition. Qed.
Lemma taporigin_bytes_eq o : ser_taporigin o = tap_origin_bytes o.
Proof. unfold ser_taporigin, tap_origin_bytes, enc_vec, enc_all. now rewrite map_id, <- app_assoc. Qed.

Lemma tx_bytes_iff t b : wf_tx_v t -> tx_wire t b <-> b = ser_tx t.
Proof.
  intros [W _]. rewrite tx_wire_iff by now apply wf_tx_fits. unfold ser_tx. tauto.
Qed.
Lemma txout_bytes_iff o b : wf_txout_v o -> txout_wire o b <-> b = ser_txout o.
Proof. intros [W _]. rewrite txout_wire_iff. unfold ser_txout. tauto. Qed.
Lemma witness_bytes_iff w b : wf_witness_v w -> witness_wire w b <-> b = ser_witness w.
Proof. intros [W _]. apply witness_wire_iff. now apply fits_iff. Qed.
Lemma tsig_bytes_iff s b : tsig_bytes s b <-> b = ser_tsig s.
Proof.
  unfold ser_tsig. destruct (ts_type s =? 0) eqn:E; split.
  - intros []; [auto|lia].
  - intros ->. apply TSDefault. lia.
  - intros []; [lia|auto].
  - intros ->. apply TSOther. lia.
Qed.
Lemma pubkey_bytes_iff k b : pubkey_bytes k b <-> b = ser_pubkey k.
Proof.
  unfold ser_pubkey. destruct (pub_compressed k) eqn:E; split.
  - intros []; congruence.
  - intros ->. now apply PKCompressed.
  - intros []; congruence.
  - intros ->. now apply PKUncompressed.
Qed.
End Facts.

Ltac splits := repeat rewrite in_app_iff; repeat (rewrite in_opt || rewrite in_map_pairs || rewrite in_prop || rewrite in_unknown || rewrite in_if || rewrite in_one).
Ltac pick := repeat match goal with
  | H : _ \/ _ |- _ => destruct H as [H|H]
  | H : exists _, _ |- _ => destruct H
  | H : _ /\ _ |- _ => destruct H
  end; subst.
(** Prove one disjunct of a long disjunction. *)
Ltac disj := solve [eauto 7] || (left; solve [eauto 7]) || (right; disj).
(** Replace the bytes of a format by what the encoder writes. *)
Ltac same_bytes := repeat match goal with
  | H : pubkey_bytes _ _ |- _ => apply pubkey_bytes_iff in H; subst
  | H : tsig_bytes _ _ |- _ => apply tsig_bytes_iff in H; subst
  | E : ?f = Some _, W : opt_of _ ?f, H : tx_wire _ _ |- _ => rewrite E in W; apply tx_bytes_iff in H; [|exact W]; subst
  | E : ?f = Some _, W : opt_of _ ?f, H : txout_wire _ _ |- _ => rewrite E in W; apply txout_bytes_iff in H; [|exact W]; subst
  | E : ?f = Some _, W : opt_of _ ?f, H : witness_wire _ _ |- _ => rewrite E in W; apply witness_bytes_iff in H; [|exact W]; subst
  end.

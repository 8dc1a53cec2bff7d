(** C71: the digests of the extracted transaction, with the real hash functions. *)
From Verif Require Import Base OMap Consensus ConsensusFacts Ext RealExt Serialize V2Global V2Input V2Output V2Psbt SpecPsbt V2Roles SpecRoles V2RolesFacts
  V2Sign RealSign V2Finalize SpecFinalize V2FinalizeFacts ExtInstance SignInstance MsInstance PropertiesV2Sign PropertiesV2Finalize.
Local Open Scope N_scope.

(** SHA-256 applied twice. *)
Definition twice (b : bytes) : bytes := real_sha256 (real_sha256 b).
(** A collision: no one has ever found one. *)
Definition collision (a b : bytes) : Prop := a <> b /\ twice a = twice b.

Lemma sha_round_length h kw : length h = 8%nat -> length (sha_round h kw) = 8%nat.
Proof. intros H. do 9 (destruct h as [|? h]; try discriminate H). reflexivity. Qed.
Lemma sha_rounds_length l : forall h, length h = 8%nat -> length (fold_left sha_round l h) = 8%nat.
Proof. induction l as [|kw l IH]; intros h H; [exact H|]. cbn [fold_left]. apply IH. now apply sha_round_length. Qed.
Lemma sha_block_length h blk : length h = 8%nat -> length (sha_block h blk) = 8%nat.
Proof. intros H. unfold sha_block. rewrite map_length, combine_length, sha_rounds_length by assumption. lia. Qed.
Lemma sha_blocks_length l : forall h, length h = 8%nat -> length (fold_left sha_block l h) = 8%nat.
Proof. induction l as [|kw l IH]; intros h H; [exact H|]. cbn [fold_left]. apply IH. now apply sha_block_length. Qed.
Lemma be_bytes_length n x : length (be_bytes n x) = n.
Proof. unfold be_bytes. now rewrite rev_length, le_enc_length. Qed.
Lemma words_length l : length (flat_map (be_bytes 4) l) = (4 * length l)%nat.
Proof. induction l as [|x l IH]; [reflexivity|]. cbn [flat_map length]. rewrite app_length, be_bytes_length, IH. lia. Qed.
Lemma real_sha256_length b : length (real_sha256 b) = 32%nat.
Proof. unfold real_sha256. cbv zeta. rewrite words_length, sha_blocks_length; [reflexivity|reflexivity]. Qed.
Lemma zeros_length n : length (zeros n) = n.
Proof. unfold zeros. apply repeat_length. Qed.

Lemma app_inj_length {A} (a b c d : list A) : length a = length b -> a ++ c = b ++ d -> a = b /\ c = d.
Proof. revert b. induction a as [|x a IH]; intros [|y b] Hl H; try discriminate; [auto|]. cbn in *. injection H as -> H. injection Hl as Hl. destruct (IH b Hl H) as [-> ->]. auto. Qed.

(** Transactions with the same inputs but for the sequences, where that of input [n] differs. *)
Lemma segwit_sequence (t t' : tx) n (i i' : txin) code value ty :
  tx_version t = tx_version t' -> map (fun i => (ti_txid i, ti_vout i)) (tx_input t) = map (fun i => (ti_txid i, ti_vout i)) (tx_input t') ->
  nth_error (tx_input t) (N.to_nat n) = Some i -> nth_error (tx_input t') (N.to_nat n) = Some i' ->
  ti_sequence i < 2 ^ 32 -> ti_sequence i' < 2 ^ 32 -> ti_sequence i <> ti_sequence i' ->
  real_segwit t n code value ty = real_segwit t' n code value ty -> exists a b, collision a b.
Proof.
  intros Hv Hp Hi Hi' Hs Hs' Hne. unfold real_segwit. cbv zeta. rewrite Hi, Hi', Hv. fold twice.
  assert (Ep : flat_map (fun i => ti_txid i ++ le_enc 4 (ti_vout i)) (tx_input t) = flat_map (fun i => ti_txid i ++ le_enc 4 (ti_vout i)) (tx_input t')).
  { rewrite !flat_map_concat_map. f_equal. apply (f_equal (map (fun o => fst o ++ le_enc 4 (snd o)))) in Hp. now rewrite !map_map in Hp. }
  assert (Eo : ti_txid i = ti_txid i' /\ ti_vout i = ti_vout i').
  { apply (f_equal (fun l => nth_error l (N.to_nat n))) in Hp. rewrite !nth_error_map, Hi, Hi' in Hp. cbn in Hp. injection Hp as -> ->. auto. }
  destruct Eo as [-> ->]. rewrite Ep.
  match goal with |- real_sha256 (real_sha256 ?a) = real_sha256 (real_sha256 ?b) -> _ => intros H; exists a, b end.
  split; [|exact H]. intros E.
  apply app_inj_length in E as [_ E]; [|reflexivity]. apply app_inj_length in E as [_ E]; [|reflexivity].
  apply app_inj_length in E as [_ E]; [|destruct (_ || _ || _); [reflexivity|now rewrite !real_sha256_length]].
  apply app_inj_length in E as [_ E]; [|reflexivity]. apply app_inj_length in E as [_ E]; [|reflexivity]. apply app_inj_length in E as [_ E]; [|reflexivity].
  apply app_inj_length in E as [E _]; [|now rewrite !le_enc_length]. apply Hne. apply (le_enc_inj 4); [exact Hs|exact Hs'|exact E].
Qed.

(** No signature of a segwit input in an extracted v2 transaction is over the digest of that
    transaction, for no sighash type, script code and value, if it was accepted by the interpreter
    for the digest that the interpreter computes; unless someone finds a collision. *)
Theorem C71_digest : forall (X : Ext) (C : Cfg) (M : MsExt) p q t t' n code value ty,
  finalizer_value p -> finalizer_finalize p = Ok q -> unsigned_tx q = Ok t -> extract_tx_unchecked q = Ok t' -> n < blen (p_inputs p) ->
  real_segwit t n code value ty = real_segwit t' n code value ty -> exists a b, collision a b.
Proof.
  intros X C M p q t t' n code value ty Hp H Ht Ht' Hn. destruct (value_facts p Hp) as [_ [m Hm]]. pose proof (unsigned_tx_ok _ _ Hm) as Hu.
  destruct (fin_extracted p q _ Hp H Hu) as (t1 & H1 & _ & H2 & _). assert (t1 = t') by congruence. subst t1.
  rewrite (C27_tx X C M p q _ Hp H Hu) in Ht. injection Ht as <-.
  set (t0 := Tx _ _ _ _) in *. destruct (nth_error (p_inputs p) (N.to_nat n)) as [i0|] eqn:Ei; [|apply nth_error_None in Ei; unfold blen in Hn; lia].
  assert (E0 : exists a, nth_error (tx_input t0) (N.to_nat n) = Some a) by (unfold t0; cbn [tx_input]; rewrite nth_error_map, Ei; cbn; eauto).
  destruct E0 as [a Ea].
  assert (E' : exists i', nth_error (tx_input t') (N.to_nat n) = Some i' /\ ti_sequence i' = 2 ^ 32 - 1).
  { apply (f_equal tx_input) in H2. cbn [strip_signatures relocked tx_input] in H2. apply (f_equal (fun l => nth_error l (N.to_nat n))) in H2. rewrite !nth_error_map, Ea in H2.
    destruct (nth_error (tx_input t') (N.to_nat n)) as [i'|]; [|discriminate]. cbn in H2. injection H2 as _ _ _ H2 _. eauto. }
  destruct E' as (i' & Hi' & Hseq). 
  apply (segwit_sequence _ _ n (TxIn (ti_txid a) (ti_vout a) (ti_script_sig a) 0 (ti_witness a)) i').
  - apply (f_equal tx_version) in H2. now symmetry.
  - apply (f_equal tx_input) in H2. cbn [strip_signatures relocked tx_input] in H2. apply (f_equal (map (fun i => (ti_txid i, ti_vout i)))) in H2. rewrite !map_map in H2.
    cbn [ti_txid ti_vout] in H2. cbn [relocked tx_input]. rewrite map_map. cbn [ti_txid ti_vout]. now symmetry.
  - cbn [relocked tx_input]. rewrite nth_error_map, Ea. reflexivity.
  - exact Hi'.
  - cbn [ti_sequence]. lia.
  - rewrite Hseq. lia.
  - rewrite Hseq. cbn [ti_sequence]. lia.
Qed.
Print Assumptions C71_digest.

(** Used by the example only. *)
#[local] Existing Instance toy | 100.
#[local] Existing Instance ex_cfg | 100.
Example C71_digest_example : exists t t', unsigned_tx (fx_final fx_done) = Ok t /\ extract_tx_unchecked (fx_final fx_done) = Ok t'
  /\ blen (p_inputs fx_done) = 1
  /\ real_segwit t 0 [] 5000 1 <> real_segwit t' 0 [] 5000 1 /\ real_segwit t 0 [] 5000 0x83 <> real_segwit t' 0 [] 5000 0x83.
Proof. do 2 eexists. split; [vm_compute; reflexivity|]. split; [vm_compute; reflexivity|]. split; [vm_compute; reflexivity|]. split; vm_compute; discriminate. Qed.

(** C96-C100: updating v0 PSBTs with descriptors. *)
From Coq Require Import Sorted.
From Verif Require Import Base OMap Consensus ConsensusFacts Ext ExtInstance Raw TapTree SpecCodec Serialize SerializeFacts MapCodec
  V2Global V2Input V2Psbt SampleV2 V2Roles Script SighashType V2Sign SignInstance SpecSign V2RolesFacts
  V0Error V0Input V0Output V0Psbt SpecPsbt0 V0WireFacts SampleV0 SpecExtract0 V0ExtractFacts V0Sign SchnorrInstance SpecSign0 V0SignFacts
  V0Finalize V0Update SpecUpdate0 V0UpdateFacts V0UpdateItemFacts V0UpdatePsbtFacts DescInstance PropertiesV0Sign.
Local Open Scope N_scope.

(** Used by the examples only; the theorems bind their own. *)
#[local] Existing Instance toy | 100.
#[local] Existing Instance toy_sign | 100.
#[local] Existing Instance toy_schnorr | 100.
#[local] Existing Instance toy_desc | 100.

(** Values for the examples: keys with origins, descriptors of all kinds, and PSBTs that spend their
    outputs. *)
Definition up_key (n : N) : ddkey := (PubKey true (ex0_pk n), ex0_src n).
Definition up_leaf (b : byte) (l : list N) : dleaf ddkey := DLeafScript [x51; b] (map up_key l).
Definition up_tree : dtree ddkey := DNode (DLeaf (up_leaf x01 [4; 5])) (DNode (DLeaf (up_leaf x02 [5; 6])) (DLeaf (up_leaf x03 [4]))).
Definition up_tr : descr ddkey := DscTr (up_key 3) (Some up_tree).
Definition up_all : list (descr ddkey) :=
  [DscPkh (up_key 1); DscWpkh (up_key 1); DscWsh [up_key 1; up_key 2] [x52]; DscSh [up_key 1; up_key 2] [x53];
   DscShWpkh (up_key 1); DscShWsh [up_key 1; up_key 2] [x54]; up_tr; DscTr (up_key 3) None; DscBare [up_key 2] [x55]].
Definition given (d : descr ddkey) : descr dkey := descr_map (fun k => DKey (Some (fst k)) (snd k)) d.
(** Transactions with an output for each descriptor, and PSBTs that spend them: one with the
    transaction, one with the output. *)
Definition up_prev (s : bytes) : tx := Tx 2 0 [TxIn txid_b 0 [] 0 []] [TxOut 700 [x51]; TxOut 5000 s].
Definition up_in (s : bytes) : input0 := set_i0_non_witness_utxo (Some (up_prev s)) input0_default.
Definition up_in_w (s : bytes) : input0 := set_i0_witness_utxo (Some (TxOut 5000 s)) input0_default.
Definition up_psbt (f : bytes -> input0) (ds : list (descr ddkey)) : psbt0 :=
  Psbt0 (Tx 2 0 (map (fun d => TxIn (compute_txid (up_prev (spk_of d))) 1 [] 4294967295 []) ds)
            (map (fun d => TxOut 4000 (spk_of d)) ds)) 0 [] [] []
    (map (fun d => f (spk_of d)) ds) (map (fun _ => output0_default) ds).
Definition up_p : psbt0 := up_psbt up_in up_all.
Definition up_pw : psbt0 := up_psbt up_in_w up_all.
(** All inputs, or outputs, updated. *)
Definition indexed {A} (l : list A) : list (N * A) := combine (map N.of_nat (seq 0 (length l))) l.
Definition up_inputs (p : psbt0) (ds : list (descr ddkey)) : psbt0 :=
  fold_left (fun p e => fst (update_input (fst e) (given (snd e)) p)) (indexed ds) p.
Lemma given_derives d : derives (given d) d.
Proof. reflexivity. Qed.

(** ** C96: when an update succeeds, and what stops it *)

Theorem C96_input : forall (X : Ext) (L : ExtLaws X) (T : SchnorrExt) (LD : DescLaws T) (D : DescExt) n d p,
  (exists p', update_input n d p = (p', Ok tt)) <->
  exists s u d', spend_at p n s /\ spendable d s u /\ derives d d' /\ fits d' /\ to_script u = spk_of d'.
Proof. intros X L T LD D. exact (update_input_ok_iff L LD). Qed.
Print Assumptions C96_input.

(** After an error nothing has changed. *)
Theorem C96_input_error : forall (X : Ext) (L : ExtLaws X) (T : SchnorrExt) (LD : DescLaws T) (D : DescExt) n d p p' e,
  update_input n d p = (p', Err e) <-> p' = p /\ input_update_error n d p e.
Proof. intros X L T LD D. exact (update_input_err_iff L LD). Qed.
Print Assumptions C96_input_error.

Theorem C96_input_panic : forall (X : Ext) (L : ExtLaws X) (T : SchnorrExt) (LD : DescLaws T) (D : DescExt) n d p,
  snd (update_input n d p) = Panic <->
  exists s u d', spend_at p n s /\ spendable d s u /\ derives d d' /\ ~ fits d'.
Proof. intros X L T LD D. exact (update_input_panic_iff L LD). Qed.
Print Assumptions C96_input_panic.

Theorem C96_output : forall (X : Ext) (L : ExtLaws X) (T : SchnorrExt) (LD : DescLaws T) (D : DescExt) n d p,
  (exists p', update_output n d p = (p', Ok tt)) <->
  n < blen (p0_outputs p) /\ exists u d',
    nth_error (tx_output (p0_unsigned_tx p)) (N.to_nat n) = Some u /\ derives d d' /\ fits d' /\ to_script u = spk_of d'.
Proof. intros X L T LD D. exact (update_output_ok_iff L LD). Qed.
Print Assumptions C96_output.

Theorem C96_output_error : forall (X : Ext) (L : ExtLaws X) (T : SchnorrExt) (LD : DescLaws T) (D : DescExt) n d p p' e,
  update_output n d p = (p', Err e) <-> p' = p /\ output_update_error n d p e.
Proof. intros X L T LD D. exact (update_output_err_iff L LD). Qed.
Print Assumptions C96_output_error.

Theorem C96_output_panic : forall (X : Ext) (L : ExtLaws X) (T : SchnorrExt) (LD : DescLaws T) (D : DescExt) n d p,
  snd (update_output n d p) = Panic <->
  n < blen (p0_outputs p) /\ n < blen (tx_output (p0_unsigned_tx p)) /\ exists d', derives d d' /\ ~ fits d'.
Proof. intros X L T LD D. exact (update_output_panic_iff L LD). Qed.
Print Assumptions C96_output_panic.

(** A descriptor derives exactly when no key of it has a hardened step below its xpub. *)
Theorem C96_derives : forall d, (exists d', derives d d') <-> forall k, In k (all_keys d) -> dk_pub k <> None.
Proof.
  intros d. split.
  - intros [d' H] k Hk. eapply derives_no_hardened; eassumption.
  - intros H. destruct (derive_desc_cases d) as [[d' E]|[_ (k & Hk & E)]]; [exists d'; now apply derive_desc_ok|]. now apply H in Hk.
Qed.
Print Assumptions C96_derives.

(** Every error occurs: the index, the transaction, the utxo (missing, with another txid, without the
    output, with two different outputs, without the transaction for a legacy descriptor), the keys and
    the script. *)
Definition bad_input (f : input0 -> input0) : res utxoupderr unit :=
  snd (update_input 1 (given (DscWpkh (up_key 1))) (set_p0_inputs (set_nth 1 (f (up_in (spk_of (DscWpkh (up_key 1))))) (p0_inputs up_p)) up_p)).
Example C96_example :
  map (fun e => snd (update_input (fst e) (given (snd e)) up_p)) (indexed up_all) = map (fun _ => Ok tt) up_all
  /\ map (fun e => snd (update_input (fst e) (given (snd e)) up_pw)) (indexed up_all)
     = [Err UUUtxoCheck; Ok tt; Ok tt; Err UUUtxoCheck; Ok tt; Ok tt; Ok tt; Ok tt; Err UUUtxoCheck]
  /\ map (fun e => snd (update_output (fst e) (given (snd e)) up_p)) (indexed up_all) = map (fun _ => Ok tt) up_all
  /\ bad_input (fun i => i) = Ok tt
  /\ bad_input (set_i0_non_witness_utxo None) = Err UUUtxoCheck
  /\ bad_input (set_i0_non_witness_utxo (Some prev0)) = Err UUUtxoCheck
  /\ bad_input (set_i0_witness_utxo (Some (TxOut 5001 (spk_of (DscWpkh (up_key 1)))))) = Err UUUtxoCheck
  /\ bad_input (set_i0_witness_utxo (Some (TxOut 5000 (spk_of (DscWpkh (up_key 1)))))) = Ok tt
  /\ snd (update_input 9 (given (DscPkh (up_key 1))) up_p) = Err (UUIndexOutOfBounds 9 9)
  /\ snd (update_input 1 (given (DscPkh (up_key 1))) up_p) = Err UUMismatchedScriptPubkey
  /\ snd (update_input 0 (DscPkh (DKey None (ex0_src 1))) up_p) = Err (UUDerivation HardenedChild)
  /\ snd (update_output 1 (given (DscPkh (up_key 1))) up_p) = Err OUMismatchedScriptPubkey.
Proof. vm_compute. repeat split. Qed.
Lemma up_spendable {K} (d : descr K) sc : spendable d (TxIn (compute_txid (up_prev sc)) 1 [] 4294967295 [], up_in sc) (TxOut 5000 sc).
Proof.
  split; [|cbn; discriminate]. constructor.
  - intros t H. injection H as <-. reflexivity.
  - intros t H. injection H as <-. reflexivity.
  - discriminate.
  - intros [_ H]. discriminate.
Qed.
Example C96_fits : fits up_tr /\ exists s, spend_at up_p 6 s /\ spendable (given up_tr) s (TxOut 5000 (spk_of up_tr)).
Proof. split; [cbn; lia|]. eexists. split; [|apply up_spendable]. vm_compute. reflexivity. Qed.
(** A tree of depth 129. *)
Definition up_deep (n : nat) : dtree ddkey := Nat.iter n (fun t => DNode (DLeaf (up_leaf x01 [4])) t) (DLeaf (up_leaf x02 [])).
Example C96_deep : ~ fits (DscTr (up_key 3) (Some (up_deep 129))) /\ fits (DscTr (up_key 3) (Some (up_deep 128)))
  /\ snd (update_output 1 (given (DscTr (up_key 3) (Some (up_deep 129)))) up_p) = Panic
  /\ snd (update_output 1 (given (DscTr (up_key 3) (Some (up_deep 128)))) up_p) = Err OUMismatchedScriptPubkey.
Proof.
  assert (E1 : depth (up_deep 129) = 129%nat) by (vm_compute; reflexivity). assert (E2 : depth (up_deep 128) = 128%nat) by (vm_compute; reflexivity).
  unfold fits. rewrite E1, E2. split; [lia|]. split; [lia|]. split; vm_compute; reflexivity.
Qed.

(** ** C97: what an update does *)

Theorem C97_input : forall (X : Ext) (L : ExtLaws X) (T : SchnorrExt) (LD : DescLaws T) (D : DescExt) n d p p',
  update_input n d p = (p', Ok tt) ->
  exists t i i' d', spend_at p n (t, i) /\ derives d d' /\ input_updated d' i i'
    /\ p' = set_p0_inputs (p0_inputs p') p /\ replaced n i i' (p0_inputs p) (p0_inputs p').
Proof.
  intros X L T LD D n d p p' H. destruct (update_input_ok L LD n d p p' H) as (ti & i & u & d' & f' & Hs & Hu & Hd & Hf & E & Hn & ->).
  exists ti, i, (input_with_fields f' i), d'. split; [exact Hs|]. split; [exact Hd|]. split; [now apply new_fields_input|]. split; [now destruct p|].
  apply spend_at_iff in Hs as [_ Hi]. replace (p0_inputs (set_p0_inputs _ p)) with (set_nth (N.to_nat n) (input_with_fields f' i) (p0_inputs p)) by (now destruct p).
  now apply set_nth_replaced.
Qed.
Print Assumptions C97_input.

Theorem C97_output : forall (X : Ext) (L : ExtLaws X) (T : SchnorrExt) (LD : DescLaws T) (D : DescExt) n d p p',
  update_output n d p = (p', Ok tt) ->
  exists o o' d', derives d d' /\ output_updated d' o o'
    /\ p' = set_p0_outputs (p0_outputs p') p /\ replaced n o o' (p0_outputs p) (p0_outputs p').
Proof.
  intros X L T LD D n d p p' H. destruct (update_output_ok L LD n d p p' H) as (o & u & d' & f' & Ho & Hu & Hd & Hf & E & Hn & ->).
  exists o, (output_with_fields f' o), d'. split; [exact Hd|]. split; [now apply new_fields_output|]. split; [now destruct p|].
  replace (p0_outputs (set_p0_outputs _ p)) with (set_nth (N.to_nat n) (output_with_fields f' o) (p0_outputs p)) by (now destruct p).
  now apply set_nth_replaced.
Qed.
Print Assumptions C97_output.

(** Without the checks, for an input or output that is not in a PSBT. *)
Theorem C97_unchecked_input : forall (X : Ext) (L : ExtLaws X) (T : SchnorrExt) (LD : DescLaws T) (D : DescExt) d i,
  match update_input_unchecked d i with
  | (i', Ok d') => derives d d' /\ fits d' /\ input_updated d' i i'
  | (i', Err e) => i' = i /\ e = HardenedChild /\ exists k, In k (all_keys d) /\ dk_pub k = None
  | (_, Panic) => exists d', derives d d' /\ ~ fits d'
  end.
Proof.
  intros X L T LD D d i. unfold update_input_unchecked. destruct (derives_cases d) as [[d' Hd]|Hd].
  - destruct (fits_dec d') as [Hf|Hf].
    + destruct (update_item_ok L LD d d' None (input_fields i) Hd Hf) as (f' & Hn & E). rewrite E. cbn [check_fails bind].
      split; [exact Hd|]. split; [exact Hf|]. now apply new_fields_input.
    + rewrite (update_item_deep d d' _ _ Hd Hf). cbn [bind]. eauto.
  - rewrite (update_item_err d _ _ Hd). cbn [bind]. split; [apply input_fields_same|]. split; [reflexivity|].
    destruct (derive_desc_cases d) as [[d' E]|[_ H]]; [|exact H]. apply derive_desc_ok in E. now apply Hd in E.
Qed.
Print Assumptions C97_unchecked_input.

Theorem C97_unchecked_output : forall (X : Ext) (L : ExtLaws X) (T : SchnorrExt) (LD : DescLaws T) (D : DescExt) d o,
  match update_output_unchecked d o with
  | (o', Ok d') => derives d d' /\ fits d' /\ output_updated d' o o'
  | (o', Err e) => o' = o /\ e = HardenedChild /\ exists k, In k (all_keys d) /\ dk_pub k = None
  | (_, Panic) => exists d', derives d d' /\ ~ fits d'
  end.
Proof.
  intros X L T LD D d o. unfold update_output_unchecked. destruct (derives_cases d) as [[d' Hd]|Hd].
  - destruct (fits_dec d') as [Hf|Hf].
    + destruct (update_item_ok L LD d d' None (output_fields o) Hd Hf) as (f' & Hn & E). rewrite E. cbn [check_fails bind].
      split; [exact Hd|]. split; [exact Hf|]. now apply new_fields_output.
    + rewrite (update_item_deep d d' _ _ Hd Hf). cbn [bind]. eauto.
  - rewrite (update_item_err d _ _ Hd). cbn [bind]. split; [apply output_fields_same|]. split; [reflexivity|].
    destruct (derive_desc_cases d) as [[d' E]|[_ H]]; [|exact H]. apply derive_desc_ok in E. now apply Hd in E.
Qed.
Print Assumptions C97_unchecked_output.

(** A script that the descriptor does not have is kept, so that it may belong to no output. *)
Theorem C97_scripts_refuted : exists (d : descr dkey) (i : input0),
  let i' := fst (@update_input_unchecked toy toy_schnorr toy_desc d i) in
  exists d', derives d d' /\ redeem_of d' = None /\ witness_of d' = None
    /\ i0_redeem_script i' <> None /\ i0_witness_script i' <> None.
Proof.
  exists (given (DscWpkh (up_key 1))), (set_i0_redeem_script (Some [x51]) (set_i0_witness_script (Some [x52]) input0_default)).
  exists (DscWpkh (up_key 1)). split; [apply given_derives|]. split; [reflexivity|]. split; [reflexivity|]. split; vm_compute; discriminate.
Qed.
Print Assumptions C97_scripts_refuted.

(** The tree of an output is kept when the descriptor has none. *)
Theorem C97_tree_refuted : exists (d : descr dkey) (o : output0),
  let o' := fst (@update_output_unchecked toy toy_schnorr toy_desc d o) in
  exists ik, derives d (DscTr ik None) /\ o0_tap_internal_key o' = Some (x_of ik) /\ o0_tap_tree o' <> None.
Proof.
  exists (given (DscTr (up_key 3) None)), (fst (update_output_unchecked (given up_tr) output0_default)).
  exists (up_key 3). split; [apply given_derives|]. split; [vm_compute; reflexivity|]. vm_compute. discriminate.
Qed.
Print Assumptions C97_tree_refuted.

Definition up_done : psbt0 := up_inputs up_p up_all.
Example C97_example :
  map (fun i => length (i0_bip32_derivation i)) (p0_inputs up_done) = [1; 1; 2; 2; 1; 2; 0; 0; 1]%nat
  /\ map (fun i => length (i0_tap_key_origins i)) (p0_inputs up_done) = [0; 0; 0; 0; 0; 0; 4; 1; 0]%nat
  /\ map (fun i => length (i0_tap_scripts i)) (p0_inputs up_done) = [0; 0; 0; 0; 0; 0; 3; 0; 0]%nat
  /\ map i0_witness_script (p0_inputs up_done) = [None; None; Some [x52]; None; None; Some [x54]; None; None; None]
  /\ map (fun i => is_some (i0_redeem_script i)) (p0_inputs up_done) = [false; false; false; true; true; true; false; false; false]
  /\ @psbt0_deserialize toy (psbt0_serialize up_done) = Ok up_done.
Proof. vm_compute. repeat split. Qed.

(** ** C98: the scripts of a taproot descriptor can be spent (BIP-341) *)

(** For every leaf there is a control block in the map with a path of at most 128 hashes that goes up
    from the leaf to the merkle root, and so does the script that the map has there. *)
Theorem C98_control_blocks : forall (X : Ext) (L : ExtLaws X) (T : SchnorrExt) (LD : DescLaws T) (D : DescExt) n d p p' ik tree,
  update_input n d p = (p', Ok tt) -> derives d (DscTr ik tree) ->
  exists s u i', spend_at p n s /\ funds0 s u /\ nth_error (p0_inputs p') (N.to_nat n) = Some i'
    /\ i0_tap_internal_key i' = Some (x_of ik) /\ i0_tap_merkle_root i' = tr_root tree
    /\ p2tr_key (to_script u) (output_key (x_of ik) (tr_root tree))
    /\ forall l, In l (tr_scripts tree) -> exists cb path sc,
         m_get sk_controlblock cb (i0_tap_scripts i') = Some (sc, 0xc0)
         /\ cb_ver cb = 0xc0 /\ cb_internal cb = x_of ik /\ cb_parity cb = output_parity (x_of ik) (tr_root tree)
         /\ cb_branch cb = concat path /\ Forall (fun h => length h = 32%nat) path /\ (length path <= 128)%nat
         /\ tr_root tree = Some (climb (lf_script l) path) /\ tr_root tree = Some (climb sc path)
         /\ exists t, tree = Some t /\ path_in t (lf_script l) path /\ path_in t sc path.
Proof.
  intros X L T LD D n d p p' ik tree H Hd. destruct (update_input_ok L LD n d p p' H) as (ti & i & u & d' & f' & Hs & Hu & Hd' & Hf & E & Hn & ->).
  rewrite (derives_fun _ _ _ Hd' Hd) in *. clear d' Hd'. pose proof (new_fields_input _ _ _ Hn) as Hi. pose proof (proj1 (spend_at_iff p n ti i) Hs) as [_ Hnth].
  exists (ti, i), u, (input_with_fields f' i). split; [exact Hs|]. split; [eapply spendable_funds; eassumption|].
  split. { replace (p0_inputs (set_p0_inputs _ p)) with (set_nth (N.to_nat n) (input_with_fields f' i) (p0_inputs p)) by (now destruct p).
           apply set_nth_same. now apply nth_error_Some_lt in Hnth || (apply nth_error_Some; congruence). }
  clear Hn. destruct Hi as [ders Ht _|ik' tree' origins scripts Ed Ho Hsc]; [exfalso; apply Ht; now exists ik, tree|]. injection Ed as <- <-.
  split; [reflexivity|]. split; [now destruct i|]. split. { rewrite E. cbn [spk_of]. unfold p2tr_key, program, blen. rewrite output_key_len. repeat split; lia. }
  replace (i0_tap_scripts _) with scripts by (now destruct i).
  intros l Hl. destruct (sa_leaf _ _ _ _ Hsc l Hl) as [cb Hcb]. pose proof (sa_controls _ _ _ _ Hsc _ _ Hcb) as Hget.
  destruct (m_get sk_controlblock cb scripts) as [[sc v]|] eqn:Eg; [|contradiction]. clear Hget.
  destruct (sa_new _ _ _ _ Hsc _ _ _ Eg) as [[-> Hsc']|[Hno _]]; [|now apply Hno in Hcb].
  destruct Hcb as (t & path & -> & [P _] & ->). destruct Hsc' as (t' & path' & Et & [P' _] & Ecb). injection Et as <-. injection Ecb as Ecat.
  assert (path' = path) as ->.
  { symmetry. apply (concat_inv path path'); [now apply (path_hashes L t (lf_script l))|now apply (path_hashes L t sc)|exact Ecat]. }
  exists (ControlBlock 0xc0 (output_parity (x_of ik) (Some (root t))) (x_of ik) (concat path)), path, sc. split; [exact Eg|].
  split; [reflexivity|]. split; [reflexivity|]. split; [reflexivity|]. split; [reflexivity|]. split; [now apply (path_hashes L t sc)|].
  split. { cbn [fits] in Hf. pose proof (path_length _ _ _ P) as Hp. exact (Nat.le_trans _ _ _ Hp Hf). }
  split; [cbn; f_equal; symmetry; now apply path_root|]. split; [cbn; f_equal; symmetry; now apply path_root|].
  exists t. auto.
Qed.
Print Assumptions C98_control_blocks.

(** If different scripts of the descriptor do not have the same path, every script of the descriptor is
    in the map. *)
Theorem C98_scripts : forall (X : Ext) (L : ExtLaws X) (T : SchnorrExt) (LD : DescLaws T) (D : DescExt) n d p p' ik t i',
  update_input n d p = (p', Ok tt) -> derives d (DscTr ik (Some t)) ->
  nth_error (p0_inputs p') (N.to_nat n) = Some i' ->
  (forall s s' path, path_in t s path -> path_in t s' path -> s = s') ->
  forall l, In l (leaves t) -> exists cb path,
    m_get sk_controlblock cb (i0_tap_scripts i') = Some (lf_script l, 0xc0)
    /\ cb_branch cb = concat path /\ climb (lf_script l) path = root t.
Proof.
  intros X L T LD D n d p p' ik t i' H Hd Hi Hinj l Hl.
  destruct (C98_control_blocks X L T LD D n d p p' ik (Some t) H Hd) as (s & u & j & _ & _ & Hj & _ & _ & _ & Hall). rewrite Hi in Hj. injection Hj as <-.
  destruct (Hall l Hl) as (cb & path & sc & Hg & _ & _ & _ & Hb & _ & _ & R1 & R2 & t' & Et & P1 & P2). injection Et as <-.
  exists cb, path. rewrite (Hinj _ _ path P1 P2). split; [exact Hg|]. split; [exact Hb|]. injection R2 as R2. symmetry. exact R2.
Qed.
Print Assumptions C98_scripts.

(** The scripts of a tree with their paths. *)
Fixpoint paths_of (t : dtree ddkey) : list (bytes * list bytes) :=
  match t with
  | DLeaf l => [(lf_script l, [])]
  | DNode l r => map (fun e => (fst e, snd e ++ [root r])) (paths_of l) ++ map (fun e => (fst e, snd e ++ [root l])) (paths_of r)
  end.
Lemma paths_of_in t s p : path_in t s p -> In (s, p) (paths_of t).
Proof.
  induction 1 as [l|l r s p P IH|l r s p P IH]; cbn [paths_of]; [now left| |]; apply in_app_iff; [left|right]; apply in_map_iff; exists (s, p); auto.
Qed.
Lemma paths_of_inj t : NoDup (map snd (paths_of t)) -> forall s s' p, path_in t s p -> path_in t s' p -> s = s'.
Proof.
  intros H s s' p P1 P2. apply paths_of_in in P1, P2. induction (paths_of t) as [|[a q] r IH]; [contradiction|].
  apply NoDup_cons_iff in H as [H1 H2]. cbn [snd] in *. destruct P1 as [E1|P1], P2 as [E2|P2].
  - congruence.
  - injection E1 as -> ->. exfalso. apply H1. change p with (snd (s', p)). now apply in_map.
  - injection E2 as -> ->. exfalso. apply H1. change p with (snd (s, p)). now apply in_map.
  - now apply IH.
Qed.
Example C98_scripts_example : forall s s' p, path_in up_tree s p -> path_in up_tree s' p -> s = s'.
Proof.
  apply paths_of_inj. assert (E : (fix nodup (l : list (list bytes)) : bool :=
    match l with [] => true | x :: r => negb (existsb (fun y => bytes_eqb (concat x) (concat y)) r) && nodup r end) (map snd (paths_of up_tree)) = true)
    by (vm_compute; reflexivity).
  induction (map snd (paths_of up_tree)) as [|x r IH]; [constructor|].
  apply andb_true_iff in E as [E1 E2]. constructor; [|now apply IH]. intros Hin. apply negb_true_iff in E1.
  assert (existsb (fun y => bytes_eqb (concat x) (concat y)) r = true) by (apply existsb_exists; exists x; split; [exact Hin|apply bytes_eqb_refl]). congruence.
Qed.

(** Scripts that were there before stay, also when they belong to another tree. *)
Definition up_stale : input0 := fst (update_input_unchecked (given up_tr) input0_default).
Definition up_cb : controlblock := match i0_tap_scripts up_stale with (cb, _) :: _ => cb | [] => ControlBlock 0 false [] [] end.
Theorem C98_stale_refuted : exists (d : descr dkey) (i : input0) ik,
  let i' := fst (@update_input_unchecked toy toy_schnorr toy_desc d i) in
  derives d (DscTr ik None) /\ i0_tap_internal_key i' = Some (x_of ik) /\ i0_tap_merkle_root i' = None
  /\ exists cb sc, m_get sk_controlblock cb (i0_tap_scripts i') = Some (sc, 0xc0).
Proof.
  exists (given (DscTr (up_key 3) None)), up_stale, (up_key 3). cbv zeta. split; [apply given_derives|]. split; [vm_compute; reflexivity|].
  split; [vm_compute; reflexivity|]. exists up_cb. eexists. vm_compute. reflexivity.
Qed.
Print Assumptions C98_stale_refuted.

(** The paths of the leaves of the example. *)
Definition up_tr_in : input0 := nth 6 (p0_inputs up_done) input0_default.
Example C98_example :
  map (fun e => (length (cb_branch (fst e)), fst (snd e))) (i0_tap_scripts up_tr_in) = [(64%nat, [x51; x03]); (64%nat, [x51; x02]); (32%nat, [x51; x01])]
  /\ i0_tap_merkle_root up_tr_in = Some (root up_tree) /\ spk_of up_tr = program_script 1 (output_key (ex0_xo 3) (Some (root up_tree))).
Proof. vm_compute. repeat split. Qed.

(** ** C99: the taproot keys *)

(** Every key of a leaf is listed with the hash of the leaf; the internal key is listed with its own
    source; nothing else is added. *)
Theorem C99_keys : forall (X : Ext) (L : ExtLaws X) (T : SchnorrExt) (LD : DescLaws T) (D : DescExt) n d p p' ik tree i i',
  update_input n d p = (p', Ok tt) -> derives d (DscTr ik tree) ->
  nth_error (p0_inputs p) (N.to_nat n) = Some i -> nth_error (p0_inputs p') (N.to_nat n) = Some i' ->
  (forall l k, In l (tr_scripts tree) -> In k (lf_keys l) -> exists hs src,
     m_get bkey (x_of k) (i0_tap_key_origins i') = Some (hs, src) /\ In (leaf_hash l) hs /\ ascending hs)
  /\ (exists hs, m_get bkey (x_of ik) (i0_tap_key_origins i') = Some (hs, snd ik)
      /\ forall h, In h hs <-> exists l k, In l (tr_scripts tree) /\ In k (lf_keys l) /\ x_of k = x_of ik /\ h = leaf_hash l)
  /\ (forall x hs src h, m_get bkey x (i0_tap_key_origins i') = Some (hs, src) -> In h hs ->
        (exists l k, In l (tr_scripts tree) /\ In k (lf_keys l) /\ x_of k = x /\ h = leaf_hash l)
        \/ exists hs0, m_get bkey x (i0_tap_key_origins i) = Some (hs0, src) /\ In h hs0)
  /\ (forall x, x <> x_of ik -> (forall l k, In l (tr_scripts tree) -> In k (lf_keys l) -> x_of k <> x) ->
        m_get bkey x (i0_tap_key_origins i) = None -> m_get bkey x (i0_tap_key_origins i') = None).
Proof.
  intros X L T LD D n d p p' ik tree i i' H Hd Hi Hi'. destruct (C97_input X L T LD D n d p p' H) as (t & j & j' & d' & Hs & Hd' & Hu & _ & Hr).
  rewrite (derives_fun _ _ _ Hd' Hd) in *. clear d' Hd'. apply replaced_nth in Hr as [E1 E2]. rewrite Hi in E1. rewrite Hi' in E2. injection E1 as <-. injection E2 as <-.
  destruct Hu as [ders Ht _|ik' tree' origins scripts Ed Ho Hsc]; [exfalso; apply Ht; now exists ik, tree|]. injection Ed as <- <-.
  replace (i0_tap_key_origins (set_i0_tap_internal_key _ _)) with origins by (now destruct i).
  split; [|split; [|split]].
  - intros l k Hl Hk. assert (Hin : in_leaf tree (x_of k) (leaf_hash l)) by (exists l, k; auto).
    destruct (m_get bkey (x_of k) origins) as [[hs src]|] eqn:E.
    + exists hs, src. split; [reflexivity|]. apply Ho in E. inversion E as [hs' Ex A I Ey|hs0 hs' src' Ex G A I Ey|hs' src' Ex G A I F Ey]; subst; (split; [apply I; auto|exact A]).
    + exfalso. set (m := new_origins ik tree (i0_tap_key_origins i)). pose proof (new_origins_spec ik tree (i0_tap_key_origins i)) as Hm. fold m in Hm.
      assert (Hsame : forall o, m_get bkey (x_of k) m = Some o <-> m_get bkey (x_of k) origins = Some o) by (intros o; rewrite (Hm (x_of k) o), (Ho (x_of k) o); reflexivity).
      assert (Hex : exists o, origin_after ik tree (i0_tap_key_origins i) (x_of k) o).
      { destruct (list_eq_dec Byte.byte_eq_dec (x_of k) (x_of ik)) as [Ek|Nk].
        - destruct (m_get bkey (x_of k) m) as [o|] eqn:Em; [apply Hm in Em; eauto|]. exfalso. unfold m, new_origins in Em. rewrite tidy_origins_get in Em.
          rewrite Ek in Em. pose proof (origins_fold_some (entries (tr_scripts tree)) (m_put bkey (x_of ik) ([], snd ik) (i0_tap_key_origins i)) (x_of ik) [] (snd ik)) as G.
          destruct G as (hs' & G & _); [apply (m_get_put_eq bkey bkey_inj)|]. rewrite G in Em. discriminate.
        - destruct (m_get bkey (x_of k) m) as [o|] eqn:Em; [apply Hm in Em; eauto|]. exfalso. unfold m, new_origins in Em. rewrite tidy_origins_get in Em.
          set (m0 := m_put bkey (x_of ik) ([], snd ik) (i0_tap_key_origins i)) in *.
          destruct (m_get bkey (x_of k) m0) as [[hs src]|] eqn:E0.
          + destruct (origins_fold_some (entries (tr_scripts tree)) m0 (x_of k) hs src E0) as (hs' & G & _). rewrite G in Em. discriminate.
          + pose proof (origins_fold_none (entries (tr_scripts tree)) m0 (x_of k) E0) as G.
            destruct (m_get bkey (x_of k) (origins_fold (entries (tr_scripts tree)) m0)) as [[hs src]|] eqn:E3; [discriminate Em|].
            apply (proj2 (entries_in (tr_scripts tree) (x_of k) (leaf_hash l))) in Hin. destruct Hin as (e & He & _ & Ex). exact (G e He Ex). }
      destruct Hex as [o Hex]. apply Ho in Hex. congruence.
  - set (hs := tidy (map leaf_hash (filter (fun l => existsb (fun k => bytes_eqb (x_of k) (x_of ik)) (lf_keys l)) (tr_scripts tree)))).
    assert (Hhs : forall h, In h hs <-> in_leaf tree (x_of ik) h).
    { intros h. unfold hs. rewrite tidy_in, in_map_iff. split.
      - intros (l & <- & Hl). apply filter_In in Hl as [Hl Hk]. apply existsb_exists in Hk as (k & Hk & Ek). apply bytes_eqb_eq in Ek. exists l, k. auto.
      - intros (l & k & Hl & -> & Hk & Ek). exists l. split; [reflexivity|]. apply filter_In. split; [exact Hl|]. apply existsb_exists. exists k.
        split; [exact Hk|]. now apply bytes_eqb_eq. }
    exists hs. split.
    + apply Ho. apply OriginInternal; [reflexivity|apply tidy_ascending|exact Hhs].
    + intros h. rewrite Hhs. unfold in_leaf. split; intros (l & k & A & B & C & E); exists l, k; auto.
  - intros x hs src h E Hh. assert (Hl : in_leaf tree x h -> exists l k, In l (tr_scripts tree) /\ In k (lf_keys l) /\ x_of k = x /\ h = leaf_hash l)
      by (intros (l & k & A & B & C & F); exists l, k; auto).
    apply Ho in E. inversion E as [hs' Ex A I Ey|hs0 hs' src' Ex G A I Ey|hs' src' Ex G A I F Ey]; subst.
    + left. apply Hl. now apply I.
    + apply I in Hh as [Hh|Hh]; [right; eauto|left; auto].
    + left. apply Hl. now apply I.
  - intros x Hx Hno Hold. destruct (m_get bkey x origins) as [o|] eqn:E; [|reflexivity]. exfalso. apply Ho in E.
    destruct E as [hs E A I|hs0 hs src E G A I|hs src E G A I F]; [contradiction|congruence|].
    destruct F as (l1 & k & l2 & Ecat & Ek & _). assert (Hin : In k (concat (map lf_keys (tr_scripts tree)))) by (rewrite Ecat; apply in_elt).
    apply in_concat in Hin as (ks & Hks & Hk). apply in_map_iff in Hks as (l & <- & Hl). exact (Hno l k Hl Hk Ek).
Qed.
Print Assumptions C99_keys.

(** The source of a key that was listed before is kept, even if the descriptor gives another. *)
Theorem C99_source_refuted : exists (d : descr dkey) (i : input0) ik tree l k hs src,
  let i' := fst (@update_input_unchecked toy toy_schnorr toy_desc d i) in
  derives d (DscTr ik (Some tree)) /\ leaves tree = [l] /\ lf_keys l = [k]
  /\ m_get bkey (x_of k) (i0_tap_key_origins i') = Some (hs, src) /\ src <> snd k.
Proof.
  exists (given (DscTr (up_key 3) (Some (DLeaf (up_leaf x01 [4]))))), (set_i0_tap_key_origins [(ex0_xo 4, ([], ex0_src 9))] input0_default).
  eexists _, _, _, _, _, _. cbv zeta. split; [apply given_derives|]. split; [reflexivity|]. split; [reflexivity|]. split; [vm_compute; reflexivity|].
  vm_compute. discriminate.
Qed.
Print Assumptions C99_source_refuted.

Example C99_example :
  map (fun k => option_map (fun o => (length (fst o), snd o)) (m_get bkey (ex0_xo k) (i0_tap_key_origins up_tr_in))) [3; 4; 5; 6; 7]
  = [Some (0%nat, ex0_src 3); Some (2%nat, ex0_src 4); Some (2%nat, ex0_src 5); Some (1%nat, ex0_src 6); None].
Proof. vm_compute. reflexivity. Qed.

(** ** C100: an update that is repeated changes nothing *)

(** The maps of the input are sorted, as a [BTreeMap] is. *)
Definition sorted_input (i : input0) : Prop :=
  m_sorted bkey (i0_bip32_derivation i) /\ m_sorted bkey (i0_tap_key_origins i) /\ m_sorted sk_controlblock (i0_tap_scripts i).
Definition sorted_output (o : output0) : Prop :=
  m_sorted bkey (o0_bip32_derivation o) /\ m_sorted bkey (o0_tap_key_origins o).
Theorem C100_input : forall (X : Ext) (L : ExtLaws X) (T : SchnorrExt) (LD : DescLaws T) (D : DescExt) n d p p',
  Forall sorted_input (p0_inputs p) -> update_input n d p = (p', Ok tt) -> update_input n d p' = (p', Ok tt).
Proof.
  intros X L T LD D n d p p' Hso H. destruct (update_input_ok L LD n d p p' H) as (ti & i & u & d' & f' & Hs & Hu & Hd & Hf & E & Hn & Ep).
  pose proof (proj1 (spend_at_iff p n ti i) Hs) as [Ht Hi].
  assert (Hlt : (N.to_nat n < length (p0_inputs p))%nat) by (apply nth_error_Some; congruence).
  set (i' := input_with_fields f' i) in *.
  assert (Hp' : p0_inputs p' = set_nth (N.to_nat n) i' (p0_inputs p)) by (rewrite Ep; now destruct p).
  assert (Hs' : spend_at p' n (ti, i')).
  { apply spend_at_iff. split; [rewrite Ep; destruct p; exact Ht|]. rewrite Hp'. now apply set_nth_same. }
  assert (Hu' : spendable d (ti, i') u).
  { destruct Hu as [[A B C F] G]. split; [constructor|]; unfold no_utxo, txid_matches in *; cbn [fst snd] in *; unfold i'; destruct i; assumption. }
  destruct (proj2 (update_input_ok_iff L LD n d p')) as [p'' H'']. { exists (ti, i'), u, d'. auto. }
  rewrite H''. f_equal. destruct (update_input_ok L LD n d p' p'' H'') as (ti2 & i2 & u2 & d2 & f2 & Hs2 & Hu2 & Hd2 & Hf2 & E2 & Hn2 & Ep2).
  pose proof (spend_at_fun _ _ _ _ Hs2 Hs') as Es. injection Es as -> ->. rewrite (derives_fun _ _ _ Hd2 Hd) in *.
  assert (Ef : input_fields i' = f').
  { unfold i'. clear -Hn D. destruct d' as [keys s|k|k|keys s|keys s|k|keys s|k tree]; cbn [new_fields] in Hn; try (rewrite Hn; now destruct i).
    destruct Hn as (info & _ & ->). now destruct i. }
  rewrite Ef in Hn2.
  assert (Esf : sorted_fields (input_fields i)).
  { rewrite Forall_forall in Hso. destruct (Hso i (nth_error_In _ _ Hi)) as (A & B & C). split; [exact A|exact B|]. intros m Em. injection Em as <-. exact C. }
  rewrite (new_fields_again d' _ _ _ Esf Hn Hn2) in Ep2. rewrite Ep2.
  replace (input_with_fields f' i') with i' by (rewrite <- Ef at 1; symmetry; apply input_fields_same).
  rewrite set_nth_self by (rewrite Hp'; now apply set_nth_same). now destruct p'.
Qed.
Print Assumptions C100_input.

Theorem C100_output : forall (X : Ext) (L : ExtLaws X) (T : SchnorrExt) (LD : DescLaws T) (D : DescExt) n d p p',
  Forall sorted_output (p0_outputs p) -> update_output n d p = (p', Ok tt) -> update_output n d p' = (p', Ok tt).
Proof.
  intros X L T LD D n d p p' Hso H. destruct (update_output_ok L LD n d p p' H) as (o & u & d' & f' & Ho & Hu & Hd & Hf & E & Hn & Ep).
  assert (Hlt : (N.to_nat n < length (p0_outputs p))%nat) by (apply nth_error_Some; congruence).
  set (o' := output_with_fields f' o) in *.
  assert (Hp' : p0_outputs p' = set_nth (N.to_nat n) o' (p0_outputs p)) by (rewrite Ep; now destruct p).
  assert (Ht' : p0_unsigned_tx p' = p0_unsigned_tx p) by (rewrite Ep; now destruct p).
  destruct (proj2 (update_output_ok_iff L LD n d p')) as [p'' H''].
  { split; [rewrite Hp'; unfold blen; rewrite set_nth_length; lia|]. exists u, d'. rewrite Ht'. auto. }
  rewrite H''. f_equal. destruct (update_output_ok L LD n d p' p'' H'') as (o2 & u2 & d2 & f2 & Ho2 & Hu2 & Hd2 & Hf2 & E2 & Hn2 & Ep2).
  rewrite Hp', set_nth_same in Ho2 by exact Hlt. injection Ho2 as <-. rewrite (derives_fun _ _ _ Hd2 Hd) in *.
  assert (Ef : output_fields o' = f').
  { unfold o'. clear -Hn D. destruct d' as [keys s|k|k|keys s|keys s|k|keys s|k tree]; cbn [new_fields] in Hn; try (rewrite Hn; now destruct o).
    destruct Hn as (info & _ & ->). destruct o, tree; reflexivity. }
  rewrite Ef in Hn2.
  assert (Esf : sorted_fields (output_fields o)).
  { rewrite Forall_forall in Hso. destruct (Hso o (nth_error_In _ _ Ho)) as (A & B). split; [exact A|exact B|]. intros m Em. discriminate Em. }
  rewrite (new_fields_again d' _ _ _ Esf Hn Hn2) in Ep2. rewrite Ep2.
  replace (output_with_fields f' o') with o' by (rewrite <- Ef at 1; symmetry; apply output_fields_same).
  rewrite set_nth_self by (rewrite Hp'; now apply set_nth_same). now destruct p'.
Qed.
Print Assumptions C100_output.

(** The hypothesis holds for the example and for every well-formed PSBT. *)
Lemma wf_sorted p : @wf_psbt0 toy p -> Forall sorted_input (p0_inputs p) /\ Forall sorted_output (p0_outputs p).
Proof.
  intros H. split.
  - eapply Forall_impl; [|exact (wp0_inputs _ H)]. intros i W. split; [exact (proj1 (wi0_bip32 _ W))|].
    split; [exact (proj1 (wi0_tap_key_origins _ W))|exact (proj1 (wi0_tap_scripts _ W))].
  - eapply Forall_impl; [|exact (wp0_outputs _ H)]. intros o W. split; [exact (proj1 (wo0_bip32 _ W))|exact (proj1 (wo0_tap_key_origins _ W))].
Qed.
Example C100_example : Forall sorted_input (p0_inputs up_p) /\ up_inputs up_done up_all = up_done.
Proof. split; [|vm_compute; reflexivity]. apply wf_sorted, ex0_wf. vm_compute. reflexivity. Qed.

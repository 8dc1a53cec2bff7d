(** C49: the checks of the v0 signer. *)
From Verif Require Import Base OMap Consensus ConsensusFacts Ext ExtInstance Raw TapTree Serialize SerializeFacts MapCodec
  V2Global V2Input V2Psbt SampleV2 V2Roles Script V2Sign SpecSign V2SignFacts
  V0Error V0Input V0Output V0Psbt SpecPsbt0 V0WireFacts SampleV0 SpecExtract0 V0ExtractFacts V0Sign SpecSign0 V0SignFacts
  V0CheckFacts.
Local Open Scope N_scope.

(** Used by the examples only; the theorems bind their own. *)
#[local] Existing Instance toy | 100.

(** Values for the examples: a previous transaction, and an input that spends its first output. *)
Definition ck_prev (script : bytes) : tx := Tx 2 0 [TxIn txid_b 7 [] 0 []] [TxOut 5000 script].
Definition ck_of (l : list (bytes * input0)) : psbt0 :=
  Psbt0 (Tx 2 0 (map (fun x => TxIn (fst x) 0 [] 4294967295 []) l) [TxOut 4000 p2wpkh_a]) 0 [] [] [] (map snd l) [output0_default].
Definition ck_witness (script : bytes) (redeem witness : option bytes) : bytes * input0 :=
  (compute_txid (ck_prev script),
   set_i0_redeem_script redeem (set_i0_witness_script witness
     (set_i0_witness_utxo (Some (TxOut 5000 script)) (set_i0_non_witness_utxo (Some (ck_prev script)) input0_default)))).
Definition ck_legacy (script : bytes) (redeem : option bytes) : bytes * input0 :=
  (compute_txid (ck_prev script), set_i0_redeem_script redeem (set_i0_non_witness_utxo (Some (ck_prev script)) input0_default)).
Definition ck_wpkh := ck_witness (program_script 0 (repeat x11 20)) None None.
Definition ck_wsh := ck_witness (program_script 0 (sha256 [x51])) None (Some [x51]).
Definition ck_shwpkh := ck_witness (p2sh_script (hash160 (program_script 0 (repeat x11 20)))) (Some (program_script 0 (repeat x11 20))) None.
Definition ck_shwsh := ck_witness (p2sh_script (hash160 (program_script 0 (sha256 [x51])))) (Some (program_script 0 (sha256 [x51]))) (Some [x51]).
Definition ck_sh := ck_legacy (p2sh_script (hash160 [x52])) (Some [x52]).
Definition ck_pkh := ck_legacy (p2pkh_script (repeat x11 20)) None.

(** ** What is accepted *)

Theorem C49_accepts_iff : forall (X : Ext) (L : ExtLaws X) p, one_map_per_input p ->
  (signer_checks p = Ok tt <-> Forall checked (spends p)) /\ signer_checks p <> Panic.
Proof.
  intros X L p H. split; [now apply checks_ok_iff|]. pose proof (checks_spec L p H) as K. destruct (signer_checks p); congruence || contradiction.
Qed.
Print Assumptions C49_accepts_iff.

(** The error is that of the first input that does not pass. *)
Theorem C49_error_iff : forall (X : Ext) (L : ExtLaws X) p e, one_map_per_input p ->
  (signer_checks p = Err e <-> exists l1 s l2, spends p = l1 ++ s :: l2 /\ Forall checked l1 /\ check_error s e).
Proof. intros X L p e. now apply checks_err_iff. Qed.
Print Assumptions C49_error_iff.

Example C49_example :
  signer_checks (ck_of [ck_wpkh; ck_wsh; ck_shwpkh; ck_pkh]) = Ok tt
  /\ signer_checks (ck_of [ck_wpkh; (txid_a, snd ck_wpkh)]) = Err SCNonWitnessUtxoTxidMismatch
  /\ signer_checks (ck_of [ck_witness (p2sh_script (repeat x11 20)) (Some [x51]) None]) = Err SCRedeemScriptMismatch
  /\ signer_checks (ck_of [ck_witness (program_script 0 (repeat x11 32)) None (Some [x51])]) = Err SCWitnessScriptMismatchWsh
  /\ signer_checks (ck_of [ck_witness (p2pkh_script (repeat x11 20)) None None]) = Err SCNonWitnessSig
  /\ one_map_per_input (ck_of [ck_wpkh; ck_wsh; ck_shwpkh; ck_pkh]).
Proof. vm_compute. repeat split. Qed.

(** ** Soundness *)

(** What an accepted PSBT is known to satisfy. *)
Theorem C49_sound_partial : forall (X : Ext) (L : ExtLaws X) p s,
  one_map_per_input p -> signer_checks p = Ok tt -> In s (spends p) ->
  txid_matches s /\ redeem_matches s
  /\ (i0_witness_utxo (snd s) <> None -> ~ spends_kind s Bare)
  /\ (spends_kind s Wsh -> witness_matches s).
Proof.
  intros X L p s Hone H Hin. apply (checks_ok_iff L p Hone) in H. rewrite Forall_forall in H. destruct (H s Hin) as [K1 K2 K3 K4].
  split; [exact K2|]. split; [|split; [exact K1|]].
  - intros r Hr. destruct (K3 r Hr) as (u & Hu & Hs). exists u. split; [now left|exact Hs].
  - intros (v & Hv & Ho) w Hw. destruct (K4 w Hw) as (u & Hu & Hh & _). exists u. assert (Hf : funds0 s u) by now left. split; [exact Hf|]. left.
    rewrite (funds0_fun s v u Hv Hf) in Ho. inversion Ho as [| |h Hp| | | |]. rewrite <- (Hh h Hp). apply Hp.
Qed.
Print Assumptions C49_sound_partial.

(** Inconsistent PSBTs that are accepted: a witness script for a P2SH output without redeem
    script, one for a P2WPKH output, and a P2SH output with a witness utxo and a redeem script
    that is no witness program, for which a signature without witness is made. *)
Theorem C49_sound_refuted : exists (X : Ext) (L : ExtLaws X) p1 p2 p3,
  (wf_psbt0 p1 /\ signer_checks p1 = Ok tt /\ ~ Forall witness_matches (spends p1) /\ Forall (fun s => spends_kind s Sh) (spends p1))
  /\ (wf_psbt0 p2 /\ signer_checks p2 = Ok tt /\ ~ Forall witness_matches (spends p2) /\ Forall (fun s => spends_kind s Wpkh) (spends p2))
  /\ (wf_psbt0 p3 /\ signer_checks p3 = Ok tt /\ ~ Forall witness_only (spends p3)).
Proof.
  set (p1 := ck_of [ck_witness (p2sh_script (repeat x11 20)) None (Some [x51])]).
  set (p2 := ck_of [ck_witness (program_script 0 (repeat x11 20)) None (Some [x51])]).
  set (p3 := ck_of [ck_witness (p2sh_script (hash160 [x52])) (Some [x52]) None]).
  assert (Hw : forall p, psbt0_deserialize (psbt0_serialize p) = Ok p -> wf_psbt0 p) by (intros p; apply deserialize0_wf).
  exists toy, toy_laws, p1, p2, p3. split; [|split]; (split; [apply Hw; vm_compute; reflexivity|]); (split; [vm_compute; reflexivity|]).
  - split.
    + intros H. destruct (Forall_inv H [x51] eq_refl) as (u & [E|[E _]] & [Hu|Hu]); try discriminate E; try discriminate Hu.
      injection E as <-. discriminate Hu.
    + constructor; [|constructor]. exists (TxOut 5000 (p2sh_script (repeat x11 20))). split; [now left|]. apply OKSh; [|discriminate].
      exists (repeat x11 20). split; reflexivity.
  - split.
    + intros H. destruct (Forall_inv H [x51] eq_refl) as (u & [E|[E _]] & [Hu|Hu]); try discriminate E; try discriminate Hu.
      injection E as <-. vm_compute in Hu. discriminate Hu.
    + constructor; [|constructor]. exists (TxOut 5000 (program_script 0 (repeat x11 20))). split; [now left|]. apply (OKWpkh _ _ (repeat x11 20)).
      split; [|reflexivity]. split; [reflexivity|]. vm_compute. split; [discriminate|]. split; discriminate.
  - intros H. destruct (Forall_inv H ltac:(discriminate)) as [_ Hn]. apply Hn. exists (TxOut 5000 (p2sh_script (hash160 [x52]))). split; [now left|].
    apply OKSh; [exists (hash160 [x52]); split; [apply (ripemd160_len (ExtLaws := toy_laws))|reflexivity]|].
    intros i h E. injection E as <-. split; intros [(E & _) _]; discriminate.
Qed.
Print Assumptions C49_sound_refuted.

(** ** Completeness *)

(** Consistent PSBTs are accepted if inputs with a script have a witness utxo and no input has
    both scripts. *)
Theorem C49_complete_partial : forall (X : Ext) (L : ExtLaws X) p, one_map_per_input p ->
  Forall consistent (spends p) ->
  Forall (fun s => i0_witness_utxo (snd s) <> None \/ i0_redeem_script (snd s) = None /\ i0_witness_script (snd s) = None) (spends p) ->
  Forall (fun s => i0_redeem_script (snd s) = None \/ i0_witness_script (snd s) = None) (spends p) ->
  signer_checks p = Ok tt.
Proof.
  intros X L p Hone Hc Hu Hb. apply (checks_ok_iff L p Hone). rewrite Forall_forall in *. intros s Hin.
  destruct (Hc s Hin) as [C1 C2 C3 C4]. specialize (Hu s Hin). specialize (Hb s Hin).
  assert (Hf : forall u, i0_redeem_script (snd s) <> None \/ i0_witness_script (snd s) <> None -> funds0 s u -> i0_witness_utxo (snd s) = Some u).
  { intros u Hs [E|[E _]]; [exact E|]. destruct Hu as [Hu|[Hu1 Hu2]]; [contradiction|]. rewrite Hu1, Hu2 in Hs. destruct Hs; congruence. }
  constructor; [intros H; now apply C4 in H|exact C1| |].
  - intros r Hr. destruct (C2 r Hr) as (u & Hfu & Hs). exists u. split; [apply Hf; [left; congruence|exact Hfu]|exact Hs].
  - intros w Hw. destruct Hb as [Hb|Hb]; [|congruence]. destruct (C3 w Hw) as (u & Hfu & [Hs|Hs]); [|congruence].
    exists u. split; [apply Hf; [right; congruence|exact Hfu]|]. split; [|auto].
    intros h [(E & _) Hl]. rewrite Hs in E. unfold program_script in E. now injection E.
Qed.
Print Assumptions C49_complete_partial.

(** An input with both scripts is never accepted: line 98 compares the P2WSH script of the redeem
    script with the script pubkey, which is P2SH. *)
Theorem C49_both_scripts : forall (X : Ext) (L : ExtLaws X) p s,
  one_map_per_input p -> In s (spends p) -> i0_redeem_script (snd s) <> None -> i0_witness_script (snd s) <> None ->
  signer_checks p <> Ok tt.
Proof.
  intros X L p s Hone Hin Hr Hw H. apply (checks_ok_iff L p Hone) in H. rewrite Forall_forall in H. destruct (H s Hin) as [_ _ K3 K4].
  destruct (i0_redeem_script (snd s)) as [r|]; [|congruence]. destruct (i0_witness_script (snd s)) as [w|]; [|congruence].
  destruct (K3 r eq_refl) as (u & Hu & Hs). destruct (K4 w eq_refl) as (u' & Hu' & _ & Hn). rewrite Hu in Hu'. injection Hu' as <-.
  enough (Some r = None) by discriminate. apply Hn. rewrite Hs. apply p2sh_of_script, (ripemd160_len (ExtLaws := L)).
Qed.
Print Assumptions C49_both_scripts.

(** An input with a script and without witness utxo is never accepted. *)
Theorem C49_no_witness_utxo : forall (X : Ext) (L : ExtLaws X) p s,
  one_map_per_input p -> In s (spends p) -> i0_witness_utxo (snd s) = None ->
  i0_redeem_script (snd s) <> None \/ i0_witness_script (snd s) <> None -> signer_checks p <> Ok tt.
Proof.
  intros X L p s Hone Hin Hu Hs H. apply (checks_ok_iff L p Hone) in H. rewrite Forall_forall in H. destruct (H s Hin) as [_ _ K3 K4].
  destruct Hs as [Hs|Hs].
  - destruct (i0_redeem_script (snd s)) as [r|]; [|congruence]. destruct (K3 r eq_refl) as (u & Hu' & _). congruence.
  - destruct (i0_witness_script (snd s)) as [w|]; [|congruence]. destruct (K4 w eq_refl) as (u & Hu' & _). congruence.
Qed.
Print Assumptions C49_no_witness_utxo.

(** Correct P2SH-P2WSH and legacy P2SH inputs are rejected. *)
Theorem C49_complete_refuted : exists (X : Ext) (L : ExtLaws X) p1 p2,
  (wf_psbt0 p1 /\ Forall consistent (spends p1) /\ Forall (fun s => spends_kind s ShWsh) (spends p1) /\ spends p1 <> []
   /\ signer_checks p1 = Err SCWitnessScriptMismatchShWsh)
  /\ (wf_psbt0 p2 /\ Forall consistent (spends p2) /\ Forall (fun s => spends_kind s Sh) (spends p2) /\ spends p2 <> []
      /\ signer_checks p2 = Err SCMissingTxOut).
Proof.
  exists toy, toy_laws, (ck_of [ck_shwsh]), (ck_of [ck_sh]).
  assert (Hw : forall p, psbt0_deserialize (psbt0_serialize p) = Ok p -> wf_psbt0 p) by (intros p; apply deserialize0_wf).
  set (q := program_script 0 (sha256 [x51])). set (u := TxOut 5000 (p2sh_script (hash160 q))).
  assert (Hp : forall r, p2sh (p2sh_script (hash160 r))) by (intros r; apply p2sh_of_script, (ripemd160_len (ExtLaws := toy_laws))).
  assert (Hk : spends_kind (TxIn (fst ck_shwsh) 0 [] 4294967295 [], snd ck_shwsh) ShWsh).
  { exists u. split; [now left|]. apply (OKShWsh _ _ q (sha256 [x51])); [apply Hp|reflexivity|].
    split; [|apply (sha256_len (ExtLaws := toy_laws))]. split; [reflexivity|]. vm_compute. split; [discriminate|]. split; discriminate. }
  assert (Hone : forall s o o', spends_kind s o -> spends_kind s o' -> o = o').
  { intros s o o' (a & Ha & Ho) (b & Hb & Ho'). rewrite (funds0_fun s b a Hb Ha) in Ho'. eapply kind_unique; eassumption. }
  split; (split; [apply Hw; vm_compute; reflexivity|]).
  - split; [|split; [constructor; [exact Hk|constructor]|split; [discriminate|vm_compute; reflexivity]]]. constructor; [|constructor]. constructor.
    + intros t E. injection E as <-. vm_compute. reflexivity.
    + intros r E. injection E as <-. exists u. split; [now left|reflexivity].
    + intros w E. injection E as <-. exists u. split; [now left|]. right. reflexivity.
    + intros _. split; intros Hc; pose proof (Hone _ _ _ Hk Hc); discriminate.
  - set (v := TxOut 5000 (p2sh_script (hash160 [x52]))).
    assert (Hf : funds0 (TxIn (fst ck_sh) 0 [] 4294967295 [], snd ck_sh) v).
    { right. split; [reflexivity|]. exists (ck_prev (to_script v)). split; reflexivity. }
    split; [|split; [|split; [discriminate|vm_compute; reflexivity]]].
    + constructor; [|constructor]. constructor.
      * intros t E. injection E as <-. vm_compute. reflexivity.
      * intros r E. injection E as <-. exists v. split; [exact Hf|reflexivity].
      * discriminate.
      * intros Hc. now destruct Hc.
    + constructor; [|constructor]. exists v. split; [exact Hf|]. apply OKSh; [apply Hp|]. intros i h E. injection E as <-.
      split; intros [(E & _) _]; discriminate.
Qed.
Print Assumptions C49_complete_refuted.

(** The sighash type is not looked at: one that no signature can have is accepted. *)
Theorem C49_sighash_refuted : exists (X : Ext) (L : ExtLaws X) p,
  wf_psbt0 p /\ signer_checks p = Ok tt /\ spends p <> []
  /\ Forall (fun s => forall ty, ~ type_of_input0 (snd s) ty /\ ~ taproot_type_of_input (snd s) ty) (spends p).
Proof.
  exists toy, toy_laws, (ck_of [(fst ck_wpkh, set_i0_sighash_type (Some 7) (snd ck_wpkh))]).
  split; [apply (deserialize0_wf (L := toy_laws) (psbt0_serialize (ck_of [(fst ck_wpkh, set_i0_sighash_type (Some 7) (snd ck_wpkh))]))); vm_compute; reflexivity|].
  split; [vm_compute; reflexivity|]. split; [discriminate|]. constructor; [|constructor]. intros ty.
  split; intros [Hin [E|[E _]]]; try discriminate E; injection E as <-; cbn in Hin; repeat (destruct Hin as [Hin|Hin]; [discriminate|]); exact Hin.
Qed.
Print Assumptions C49_sighash_refuted.

Example C49_complete_example :
  let p := ck_of [ck_wpkh; ck_wsh; ck_shwpkh; ck_pkh] in
  Forall (fun s => i0_witness_utxo (snd s) <> None \/ i0_redeem_script (snd s) = None /\ i0_witness_script (snd s) = None) (spends p)
  /\ Forall (fun s => i0_redeem_script (snd s) = None \/ i0_witness_script (snd s) = None) (spends p)
  /\ consistent (TxIn (fst ck_wsh) 0 [] 4294967295 [], snd ck_wsh).
Proof.
  split; [|split].
  - constructor; [left; discriminate|]. constructor; [left; discriminate|]. constructor; [left; discriminate|]. constructor; [right; auto|constructor].
  - constructor; [left; reflexivity|]. constructor; [left; reflexivity|]. constructor; [right; reflexivity|]. constructor; [left; reflexivity|constructor].
  - set (u := TxOut 5000 (program_script 0 (sha256 [x51]))).
    assert (Hk : spends_kind (TxIn (fst ck_wsh) 0 [] 4294967295 [], snd ck_wsh) Wsh).
    { exists u. split; [now left|]. apply (OKWsh _ _ (sha256 [x51])). split; [|apply (sha256_len (ExtLaws := toy_laws))].
      split; [reflexivity|]. vm_compute. split; [discriminate|]. split; discriminate. }
    constructor.
    + intros t E. injection E as <-. vm_compute. reflexivity.
    + discriminate.
    + intros w E. injection E as <-. exists u. split; [now left|]. left. reflexivity.
    + intros _. split; intros (v & Hv & Ho); destruct Hk as (v' & Hv' & Ho'); rewrite (funds0_fun _ v v' Hv Hv') in Ho;
        pose proof (kind_unique _ _ _ _ Ho Ho'); discriminate.
Qed.

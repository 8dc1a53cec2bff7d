(** Spending inputs that were updated with a descriptor (V0Update.v). *)
From Verif Require Import Base OMap Consensus Ext Raw TapTree SpecCodec Serialize SerializeFacts MapCodec V2Sign SpecSign V2SignFacts
  V2Roles V2Finalize V2RolesFacts V0Input V0Output V0Psbt SpecExtract0 V0Sign SpecSign0 V0SignFacts V0SignResultFacts V0CheckFacts V0Finalize V0Update
  SpecUpdate0 V0UpdateFacts V0UpdateItemFacts V0UpdatePsbtFacts.
Local Open Scope N_scope.

Lemma program_first s v g : program s v g -> exists b r, s = b :: r /\ In b [x00; x51; x52; x53; x54; x55; x56; x57; x58; x59; x5a; x5b; x5c; x5d; x5e; x5f; x60].
Proof.
  intros (-> & Hv & _). unfold program_script. eexists _, _. split; [reflexivity|].
  assert (E : In v [0; 1; 2; 3; 4; 5; 6; 7; 8; 9; 10; 11; 12; 13; 14; 15; 16]) by (cbn [In]; lia).
  repeat (destruct E as [<-|E]; [vm_compute; tauto|]). destruct E.
Qed.
Lemma p2pkh_no_program h v g : ~ program (p2pkh_script h) v g.
Proof. intros H. apply program_first in H as (b & r & E & Hin). injection E as <- _. repeat (destruct Hin as [Hin|Hin]; [discriminate|]). destruct Hin. Qed.
Lemma p2sh_no_program h v g : ~ program (p2sh_script h) v g.
Proof. intros H. apply program_first in H as (b & r & E & Hin). injection E as <- _. repeat (destruct Hin as [Hin|Hin]; [discriminate|]). destruct Hin. Qed.
Lemma p2pkh_not_p2sh h : ~ p2sh (p2pkh_script h).
Proof. intros (g & _ & E). discriminate. Qed.
Lemma program_not_p2sh v g : v <= 1 -> ~ p2sh (program_script v g).
Proof. intros Hv (h & _ & E). unfold program_script, p2sh_script in E. assert (v = 0 \/ v = 1) as [->| ->] by lia; discriminate. Qed.
Lemma program_of v g n : length g = n -> (2 <= n <= 40)%nat -> v <= 16 -> program (program_script v g) v g.
Proof. intros H1 H2 H3. split; [reflexivity|]. split; [exact H3|]. unfold blen. rewrite H1. lia. Qed.

Section Update.
Context `{X : Ext} {L : ExtLaws X} `{S : SignExt} `{T : SchnorrExt} {LD : DescLaws T} `{D : DescExt}.

Lemma key_hash_len k : length (key_hash k) = 20%nat.
Proof. unfold key_hash, hash160. apply ripemd160_len. Qed.
Lemma hash160_length b : length (hash160 b) = 20%nat.
Proof. unfold hash160. apply ripemd160_len. Qed.
Lemma wpkh_key k : p2wpkh_hash (program_script 0 (key_hash k)) (key_hash k).
Proof. split; [apply (program_of _ _ 20); [apply key_hash_len|lia|lia]|apply key_hash_len]. Qed.
Lemma wsh_script s : p2wsh_hash (program_script 0 (sha256 s)) (sha256 s).
Proof. split; [apply (program_of _ _ 32); [apply sha256_len|lia|lia]|apply sha256_len]. Qed.
Lemma tr_key k tree : p2tr_key (program_script 1 (output_key k tree)) (output_key k tree).
Proof. split; [apply (program_of _ _ 32); [apply output_key_len|lia|lia]|apply output_key_len]. Qed.
Lemma sh_hash b : p2sh (p2sh_script (hash160 b)).
Proof. exists (hash160 b). split; [apply hash160_length|reflexivity]. Qed.

Lemma desc_kind d r : proper d -> (forall s, redeem_of d = Some s -> r = Some s) -> output_kind (spk_of d) r (kind_for d).
Proof.
  intros Hp Hr. destruct d as [keys s|k|k|keys s|keys s|k|keys s|k tree]; cbn [spk_of kind_for redeem_of proper] in *.
  - now apply OKBare.
  - apply OKBare; [apply p2pkh_not_p2sh|apply p2pkh_no_program].
  - eapply OKWpkh. apply wpkh_key.
  - eapply OKWsh. apply wsh_script.
  - apply OKSh; [apply sh_hash|]. intros i h E. rewrite (Hr s eq_refl) in E. injection E as <-. split; intros [H _]; exact (Hp _ _ H).
  - eapply OKShWpkh; [apply sh_hash|now apply Hr|apply wpkh_key].
  - eapply OKShWsh; [apply sh_hash|now apply Hr|apply wsh_script].
  - eapply OKTr. apply tr_key.
Qed.
Lemma desc_message d t n r w u ty : proper d -> ~ taproot d -> to_script u = spk_of d ->
  (forall s, redeem_of d = Some s -> r = Some s) -> (forall s, witness_of d = Some s -> w = Some s) ->
  message0 t n r w u ty (digest_for d t n (to_value u) ty).
Proof.
  intros Hp Ht E Hr Hw. pose proof (desc_kind d r Hp Hr) as Hk. rewrite <- E in Hk.
  destruct d as [keys s|k|k|keys s|keys s|k|keys s|k tree]; cbn [spk_of kind_for redeem_of witness_of digest_for] in *.
  - rewrite <- E. now apply M0Bare.
  - rewrite <- E. now apply M0Bare.
  - apply M0Wpkh. rewrite E. apply wpkh_key.
  - apply (M0Wsh _ _ _ _ _ _ (sha256 s)); [rewrite E; apply wsh_script|now apply Hw].
  - now apply M0Sh; [|apply Hr].
  - apply (M0ShWpkh _ _ _ _ _ _ (program_script 0 (key_hash k))); [rewrite E; apply sh_hash|now apply Hr|apply wpkh_key].
  - apply (M0ShWsh _ _ _ _ _ _ (program_script 0 (sha256 s)) (sha256 s)); [rewrite E; apply sh_hash|now apply Hr|apply wsh_script|now apply Hw].
  - exfalso. apply Ht. now exists k, tree.
Qed.

(** What an update does not change, and the scripts after it. *)
Record kept (i i' : input0) : Prop := {
  kp_non_witness : i0_non_witness_utxo i' = i0_non_witness_utxo i;
  kp_witness : i0_witness_utxo i' = i0_witness_utxo i;
  kp_type : i0_sighash_type i' = i0_sighash_type i;
  kp_sigs : i0_partial_sigs i' = i0_partial_sigs i;
  kp_key_sig : i0_tap_key_sig i' = i0_tap_key_sig i;
  kp_script_sigs : i0_tap_script_sigs i' = i0_tap_script_sigs i
}.
Lemma updated_kept d i i' : input_updated d i i' -> kept i i'.
Proof. intros H. destruct H; destruct i; split; reflexivity. Qed.
Lemma updated_scripts d i i' : input_updated d i i' ->
  i0_redeem_script i' = (match redeem_of d with Some s => Some s | None => i0_redeem_script i end)
  /\ i0_witness_script i' = (match witness_of d with Some s => Some s | None => i0_witness_script i end).
Proof.
  intros H. destruct H as [ders Ht Hs|ik tree origins scripts -> Ho Hs]; [split; reflexivity|]. cbn [redeem_of witness_of]. split; reflexivity.
Qed.
Lemma kept_funds i i' t u : kept i i' -> funds0 (t, i') u <-> funds0 (t, i) u.
Proof. intros [A B _ _ _ _]. unfold funds0. cbn [fst snd]. now rewrite A, B. Qed.
Lemma kept_type i i' ty : kept i i' -> type_of_input0 i' ty <-> type_of_input0 i ty.
Proof. intros [_ _ C _ _ _]. unfold type_of_input0. now rewrite C. Qed.
Lemma kept_tap_type i i' ty : kept i i' -> taproot_type_of_input i' ty <-> taproot_type_of_input i ty.
Proof. intros [_ _ C _ _ _]. unfold taproot_type_of_input. now rewrite C. Qed.

(** An update, with what is needed to spend the input afterwards. *)
Lemma update_input_after n d p p' : update_input n d p = (p', Ok tt) ->
  exists t i i' u d', spend_at p n (t, i) /\ spend_at p' n (t, i') /\ derives d d' /\ spendable d (t, i) u /\ to_script u = spk_of d'
    /\ input_updated d' i i' /\ replaced n i i' (p0_inputs p) (p0_inputs p') /\ p0_unsigned_tx p' = p0_unsigned_tx p
    /\ (sorted_origins i -> sorted_origins i').
Proof.
  intros H. destruct (update_input_ok L LD n d p p' H) as (ti & i & u & d' & f' & Hs & Hu & Hd & Hf & E & Hn & Ep).
  pose proof (proj1 (spend_at_iff p n ti i) Hs) as [Ht Hi].
  assert (Hlt : (N.to_nat n < length (p0_inputs p))%nat) by (apply nth_error_Some; congruence).
  assert (Hp' : p0_inputs p' = set_nth (N.to_nat n) (input_with_fields f' i) (p0_inputs p)) by (rewrite Ep; now destruct p).
  assert (Htx : p0_unsigned_tx p' = p0_unsigned_tx p) by (rewrite Ep; now destruct p).
  exists ti, i, (input_with_fields f' i), u, d'. split; [exact Hs|].
  split. { apply spend_at_iff. rewrite Htx, Hp'. split; [exact Ht|]. now apply set_nth_same. }
  split; [exact Hd|]. split; [exact Hu|]. split; [exact E|]. split; [now apply new_fields_input|]. rewrite Hp'. split; [now apply set_nth_replaced|].
  split; [exact Htx|]. unfold sorted_origins. intros Hso.
  destruct d' as [keys s|k|k|keys s|keys s|k|keys s|k tree]; cbn [new_fields] in Hn; try (rewrite Hn; exact Hso).
  destruct Hn as (info & _ & ->). change (m_sorted bkey (new_origins k tree (i0_tap_key_origins i))). now apply new_origins_sorted.
Qed.

Lemma spendable_prev {K} (d : descr K) s u : spendable d s u -> legacy d -> i0_witness_utxo (snd s) = None -> exists q, i0_non_witness_utxo (snd s) = Some q.
Proof. intros [_ H] Hl _. specialize (H Hl). destruct (i0_non_witness_utxo (snd s)); [eauto|contradiction]. Qed.

Lemma legacy_map {K K'} (g : K -> K') d : legacy (descr_map g d) <-> legacy d.
Proof. destruct d; cbn; tauto. Qed.

End Update.

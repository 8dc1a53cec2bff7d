(** C68: the script sig of a script hash output pushes the redeem script last. *)
From Coq Require Import Sorted.
From Verif Require Import Base OMap Consensus ConsensusFacts Ext ExtInstance Raw RawFacts TapTree Serialize SerializeFacts MapCodec
  V2Global V2Input V2Output V2Psbt SpecCodec SpecPsbt V2PsbtFacts V2WireFacts V2Roles SpecRoles V2RolesFacts
  Script SighashType V2Sign SignInstance SpecSign V2SignFacts SampleV2 V2Finalize SpecFinalize V2FinalizeFacts MsInstance V2SpendFacts PropertiesV2Spend
  V0Error V0Input V0Output V0Psbt SpecPsbt0 V0PsbtFacts V0WireFacts SampleV0 PropertiesV0Codec SpecExtract0 V0ExtractFacts
  V0Sign SchnorrInstance SpecSign0 V0SignFacts PropertiesV0Sign V0Finalize SpecFinalize0 V0FinalizeFacts V0SpendFacts MsInstance0 PropertiesV0Finalize PropertiesV0Spend SpecPush.
Local Open Scope N_scope.

Lemma split_at_app b r : split_at (blen b) (b ++ r) = Some (b, r).
Proof.
  unfold split_at, blen. rewrite app_length. replace (_ <? _) with false by lia. rewrite Nnat.Nat2N.id.
  rewrite firstn_app, skipn_app, Nat.sub_diag, firstn_all, skipn_all. cbn. now rewrite app_nil_r.
Qed.
Lemma le_dec2 a b : le_dec [a; b] = b2n a + 256 * b2n b.
Proof. cbn [le_dec]. lia. Qed.
Lemma le_dec4 a b c d : le_dec [a; b; c; d] = b2n a + 256 * b2n b + 65536 * b2n c + 16777216 * b2n d.
Proof. cbn [le_dec]. lia. Qed.

(** Whatever is pushed, the interpreter reads back, whatever follows. *)
Theorem C68_push : forall b r, blen b < 4294967296 -> read_push (push_slice b ++ r) = Some (b, r).
Proof.
  intros b r H. unfold push_slice.
  destruct (blen b <? 76) eqn:E1; [|destruct (blen b <? 256) eqn:E2; [|destruct (blen b <? 65536) eqn:E3]].
  - cbn [app read_push]. rewrite b2n_n2b by lia. replace (blen b <=? 75) with true by lia. apply split_at_app.
  - cbn [app read_push]. change (b2n x4c) with 76. cbn [N.leb N.eqb N.compare Pos.compare Pos.compare_cont Pos.eqb]. rewrite b2n_n2b by lia. apply split_at_app.
  - pose proof (le_enc_length 2 (blen b)) as L. pose proof (le_dec_enc 2 (blen b) ltac:(cbn; lia)) as D.
    destruct (le_enc 2 (blen b)) as [|a0 [|a1 [|]]]; try discriminate L. rewrite le_dec2 in D.
    cbn [app read_push]. change (b2n x4d) with 77. cbn [N.leb N.eqb N.compare Pos.compare Pos.compare_cont Pos.eqb]. rewrite D. apply split_at_app.
  - pose proof (le_enc_length 4 (blen b)) as L. pose proof (le_dec_enc 4 (blen b) ltac:(cbn; lia)) as D.
    destruct (le_enc 4 (blen b)) as [|a0 [|a1 [|a2 [|a3 [|]]]]]; try discriminate L. rewrite le_dec4 in D.
    cbn [app read_push]. change (b2n x4e) with 78. cbn [N.leb N.eqb N.compare Pos.compare Pos.compare_cont Pos.eqb]. rewrite D. apply split_at_app.
Qed.
Print Assumptions C68_push.

Lemma ends_push t b : blen b < 4294967296 -> ends_with_push (t ++ push_slice b) b.
Proof. intros H. exists t, (push_slice b). split; [reflexivity|]. rewrite <- (app_nil_r (push_slice b)). now apply C68_push. Qed.
Lemma ends_short b : (length b < 76)%nat -> ends_with_push (n2b (blen b) :: b) b.
Proof. intros H. rewrite <- push_short by assumption. apply (ends_push []). unfold blen. lia. Qed.
Lemma wpkh_short rs h : p2wpkh_hash rs h -> (length rs < 76)%nat.
Proof. intros H. assert (E : is_p2wpkh rs = true) by (apply is_p2wpkh_iff; eauto). apply p2wpkh_length in E. lia. Qed.
Lemma wsh_short rs h : p2wsh_hash rs h -> (length rs < 76)%nat.
Proof. intros H. assert (E : is_p2wsh rs = true) by (apply is_p2wsh_iff; eauto). apply p2wsh_length in E. lia. Qed.

(** The script sig that the finalizers build for a script hash output ends with a push of a script
    that has this hash; shorter scripts may be numbers, longer ones cannot be pushed. *)
Theorem C68_sh_push : forall (X : Ext) (L : ExtLaws X) (C : Cfg) (M : MsExt) (ML : MsLaws X M) p i u h ss w,
  funds i u -> to_script u = p2sh_script h -> length h = 20%nat -> computed p i ss w ->
  exists rs, in_redeem_script i = Some rs /\ hash160 rs = h /\ ((4 < length rs <= 520)%nat -> ends_with_push ss rs).
Proof.
  intros X L C M ML p i u h ss w Hu Hs Hh H. destruct (C68_sh X L C M ML p i u h ss w Hu Hs Hh H) as (rs & R & E & K).
  exists rs. split; [assumption|]. split; [assumption|]. intros Hl.
  destruct K as [(h' & P & -> & _)|[(h' & ws & st & P & _ & _ & _ & ->)|(_ & K)]].
  - apply ends_short. eapply wpkh_short, P.
  - apply ends_short. eapply wsh_short, P.
  - destruct (K Hl) as [st ->]. apply ends_push. unfold blen. lia.
Qed.
Print Assumptions C68_sh_push.

Theorem C68_v0_sh_push : forall (X : Ext) (L : ExtLaws X) (M : MsExt) (NM : MsNmExt M) (ML : MsLaws X M) mall p n ti i u h ss w,
  spend_at p n (ti, i) -> funds0 (ti, i) u -> to_script u = p2sh_script h -> length h = 20%nat -> built mall p n w ss ->
  exists rs, i0_redeem_script i = Some rs /\ hash160 rs = h /\ ((4 < length rs <= 520)%nat -> ends_with_push ss rs).
Proof.
  intros X L M NM ML mall p n ti i u h ss w Hsp Hu Hs Hh H. destruct (C68_v0_sh X L M NM ML mall p n ti i u h ss w Hsp Hu Hs Hh H) as (rs & R & E & K).
  exists rs. split; [assumption|]. split; [assumption|]. intros Hl.
  destruct K as [(h' & P & -> & _)|[(h' & ws & st & P & _ & _ & _ & ->)|(_ & K)]].
  - apply ends_short. eapply wpkh_short, P.
  - apply ends_short. eapply wsh_short, P.
  - destruct (K Hl) as [st ->]. apply ends_push. unfold blen. lia.
Qed.
Print Assumptions C68_v0_sh_push.

(** Scripts of 300 and 100 bytes, pushed with lengths of two bytes and one. *)
Example C68_push_case :
  read_push (push_slice (repeat x51 300) ++ [xac]) = Some (repeat x51 300, [xac])
  /\ firstn 3 (push_slice (repeat x51 300)) = [x4d; x2c; x01]
  /\ firstn 2 (push_slice (repeat x51 100)) = [x4c; x64].
Proof. vm_compute. auto. Qed.

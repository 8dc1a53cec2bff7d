(** Facts about the model of signing. *)
From Verif Require Import Base OMap Consensus Ext Raw TapTree Serialize SerializeFacts MapCodec V2Global V2Input V2Output V2Psbt
  SpecCodec SpecPsbt V2Roles SpecRoles V2RolesFacts Script SighashType V2Sign SpecSign.
Local Open Scope N_scope.

(** ** Scripts *)

Lemma is_p2sh_iff s : is_p2sh s = true <-> p2sh s.
Proof.
  unfold is_p2sh, p2sh, p2sh_script, byte_at. rewrite !andb_true_iff, !beq_eq, N.eqb_eq. unfold blen. split.
  - intros [[[Hl H0] H1] H2]. destruct s as [|b0 [|b1 r]]; cbn [length] in Hl; try lia.
    cbn [nth] in *. subst. exists (firstn 20 r). rewrite firstn_length. split; [lia|].
    assert (Hs : length (skipn 20 r) = 1%nat) by (rewrite skipn_length; lia).
    destruct (skipn 20 r) as [|c [|]] eqn:E; try discriminate Hs.
    rewrite <- (firstn_skipn 20 r) in H2 at 1. rewrite E, app_nth2 in H2 by (rewrite firstn_length; lia).
    rewrite firstn_length in H2. replace (20 - Nat.min 20 (length r))%nat with 0%nat in H2 by lia. cbn [nth] in H2. subst c.
    cbn [app]. now rewrite <- E, firstn_skipn.
  - intros (h & Hh & ->). cbn [app length nth]. rewrite app_length. cbn [length]. rewrite app_nth2 by lia.
    rewrite Hh. cbn [nth Nat.sub]. repeat split; try reflexivity.
Qed.

Lemma version_opcode v : v <= 16 -> (if v =? 0 then 0 else 80 + v) < 256.
Proof. destruct (v =? 0); lia. Qed.
Lemma opcode_version b : witness_version_opcode b = true -> exists v, v <= 16 /\ n2b (if v =? 0 then 0 else 80 + v) = b.
Proof.
  unfold witness_version_opcode. intros H. destruct (b2n b =? 0) eqn:E.
  - exists 0. split; [lia|]. cbn [N.eqb]. rewrite <- (n2b_b2n b). f_equal. lia.
  - exists (b2n b - 80). split; [lia|]. replace (b2n b - 80 =? 0) with false by lia.
    rewrite <- (n2b_b2n b) at 2. f_equal. lia.
Qed.
Lemma version_is_opcode v : v <= 16 -> witness_version_opcode (n2b (if v =? 0 then 0 else 80 + v)) = true.
Proof.
  intros H. unfold witness_version_opcode. rewrite b2n_n2b by now apply version_opcode.
  destruct (v =? 0) eqn:E; [reflexivity|]. lia.
Qed.
Lemma is_witness_program_iff s : is_witness_program s = true <-> exists v g, program s v g.
Proof.
  unfold is_witness_program, program, program_script, byte_at. split.
  - rewrite !andb_true_iff. intros [[[[[H1 H2] H3] H4] H5] H6]. destruct s as [|b0 [|b1 g]]; try discriminate H1.
    cbn [nth] in *. destruct (opcode_version _ H3) as (v & Hv & <-). exists v, g.
    assert (Hg : blen g = b2n b1) by (unfold blen in *; cbn [length] in *; lia).
    split; [|lia]. rewrite Hg, n2b_b2n. reflexivity.
  - intros (v & g & -> & Hv & Hg). cbn [nth]. rewrite version_is_opcode, b2n_n2b by (auto; lia).
    rewrite !andb_true_iff. unfold blen in *. cbn [length]. lia.
Qed.
Lemma program_inj s v g v' g' : program s v g -> program s v' g' -> v = v' /\ g = g'.
Proof.
  intros (-> & Hv & Hg) (H & Hv' & Hg'). unfold program_script in H.
  assert (Hb : n2b (if v =? 0 then 0 else 80 + v) = n2b (if v' =? 0 then 0 else 80 + v')) by congruence.
  assert (g = g') by congruence. split; [|assumption].
  apply (f_equal b2n) in Hb. rewrite !b2n_n2b in Hb by now apply version_opcode.
  destruct (v =? 0) eqn:E, (v' =? 0) eqn:E'; lia.
Qed.
Lemma p2sh_not_program s v g : p2sh s -> ~ program s v g.
Proof.
  intros (h & Hh & ->) (H & Hv & _). unfold program_script, p2sh_script in H. cbn [app] in H.
  assert (Hb : xa9 = n2b (if v =? 0 then 0 else 80 + v)) by congruence.
  apply (f_equal b2n) in Hb. rewrite b2n_n2b in Hb by now apply version_opcode. change (b2n xa9) with 169 in Hb.
  destruct (v =? 0); lia.
Qed.
Lemma program_bytes (len : nat) (op ln : byte) (v : N) s :
  n2b (if v =? 0 then 0 else 80 + v) = op -> v <= 16 -> n2b (N.of_nat len) = ln -> (2 <= len <= 40)%nat ->
  ((blen s =? N.of_nat (2 + len)) && beq (byte_at s 0) op && beq (byte_at s 1) ln = true
   <-> exists g, program s v g /\ length g = len).
Proof.
  intros Hop Hv Hln Hlen. unfold byte_at, program, program_script, blen.
  rewrite !andb_true_iff, !beq_eq, N.eqb_eq. split.
  - intros [[H H0] H1]. destruct s as [|b0 [|b1 g]]; cbn [length] in H; try lia.
    cbn [nth] in *. subst b0 b1. exists g. assert (Hg : length g = len) by lia. rewrite Hg, Hop, Hln. repeat split; lia.
  - intros (g & (-> & _ & _) & Hg). cbn [nth length]. rewrite Hg, Hop, Hln. repeat split.
Qed.
Lemma is_p2wpkh_iff s : is_p2wpkh s = true <-> exists h, p2wpkh_hash s h.
Proof. apply (program_bytes 20 x00 x14 0 s); reflexivity || lia. Qed.
Lemma is_p2wsh_iff s : is_p2wsh s = true <-> exists h, p2wsh_hash s h.
Proof. apply (program_bytes 32 x00 x20 0 s); reflexivity || lia. Qed.
Lemma is_p2tr_iff s : is_p2tr s = true <-> exists k, p2tr_key s k.
Proof. apply (program_bytes 32 x51 x20 1 s); reflexivity || lia. Qed.

Lemma bool_false_iff (b : bool) (P : Prop) : (b = true <-> P) -> (b = false <-> ~ P).
Proof. destruct b; intuition congruence. Qed.
Lemma is_p2sh_false s : is_p2sh s = false <-> ~ p2sh s.
Proof. apply bool_false_iff, is_p2sh_iff. Qed.
Lemma is_witness_program_false s : is_witness_program s = false <-> ~ exists v g, program s v g.
Proof. apply bool_false_iff, is_witness_program_iff. Qed.
Lemma is_p2wpkh_false s : is_p2wpkh s = false <-> ~ exists h, p2wpkh_hash s h.
Proof. apply bool_false_iff, is_p2wpkh_iff. Qed.
Lemma is_p2wsh_false s : is_p2wsh s = false <-> ~ exists h, p2wsh_hash s h.
Proof. apply bool_false_iff, is_p2wsh_iff. Qed.
Lemma is_p2tr_false s : is_p2tr s = false <-> ~ exists k, p2tr_key s k.
Proof. apply bool_false_iff, is_p2tr_iff. Qed.

Lemma script_code_iff s c : p2wpkh_script_code s = Some c <-> exists h, p2wpkh_hash s h /\ c = p2pkh_script h.
Proof.
  unfold p2wpkh_script_code, p2pkh_script. split.
  - destruct (is_p2wpkh s) eqn:E; [|discriminate]. intros [= <-]. apply is_p2wpkh_iff in E as (h & Hh).
    exists h. split; [exact Hh|]. destruct Hh as [(-> & _ & _) _]. reflexivity.
  - intros (h & Hh & ->). rewrite (proj2 (is_p2wpkh_iff s)) by eauto.
    destruct Hh as [(-> & _ & _) _]. reflexivity.
Qed.

(** The classification as a function. *)
Definition kind_of (s : bytes) (r : option bytes) : option outtype :=
  if negb (is_witness_program s || is_p2sh s) then Some Bare
  else if is_p2wpkh s then Some Wpkh
  else if is_p2wsh s then Some Wsh
  else if is_p2sh s then
    if match r with Some s => is_p2wpkh s | None => false end then Some ShWpkh
    else if match r with Some s => is_p2wsh s | None => false end then Some ShWsh
    else Some Sh
  else if is_p2tr s then Some Tr
  else None.

Lemma wpkh_wsh s h h' : p2wpkh_hash s h -> p2wsh_hash s h' -> False.
Proof. intros [P1 L1] [P2 L2]. destruct (program_inj _ _ _ _ _ P1 P2) as [_ ->]. congruence. Qed.
Lemma kind_of_iff s r o : kind_of s r = Some o <-> output_kind s r o.
Proof.
  split.
  - unfold kind_of. destruct (is_witness_program s) eqn:Ep; cbn [orb negb].
    + destruct (is_p2wpkh s) eqn:E1; [apply is_p2wpkh_iff in E1 as [h E1]; intros [= <-]; now apply OKWpkh with h|].
      destruct (is_p2wsh s) eqn:E2; [apply is_p2wsh_iff in E2 as [h E2]; intros [= <-]; now apply OKWsh with h|].
      destruct (is_p2sh s) eqn:E3.
      { exfalso. apply is_p2sh_iff in E3. apply is_witness_program_iff in Ep as (v & g & Ep).
        exact (p2sh_not_program _ _ _ E3 Ep). }
      destruct (is_p2tr s) eqn:E4; [|discriminate]. apply is_p2tr_iff in E4 as [k E4]. intros [= <-]. now apply OKTr with k.
    + destruct (is_p2sh s) eqn:E3; cbn [negb].
      * apply is_p2sh_iff in E3.
        destruct (is_p2wpkh s) eqn:E1.
        { exfalso. apply is_p2wpkh_iff in E1 as (h & E1 & _). exact (p2sh_not_program _ _ _ E3 E1). }
        destruct (is_p2wsh s) eqn:E2.
        { exfalso. apply is_p2wsh_iff in E2 as (h & E2 & _). exact (p2sh_not_program _ _ _ E3 E2). }
        destruct r as [i|]; [|intros [= <-]; apply OKSh; [assumption|intros; discriminate]].
        destruct (is_p2wpkh i) eqn:E4; [apply is_p2wpkh_iff in E4 as [h E4]; intros [= <-]; now apply OKShWpkh with i h|].
        destruct (is_p2wsh i) eqn:E5; [apply is_p2wsh_iff in E5 as [h E5]; intros [= <-]; now apply OKShWsh with i h|].
        intros [= <-]. apply OKSh; [assumption|]. intros j h Hj. injection Hj as <-.
        apply is_p2wpkh_false in E4. apply is_p2wsh_false in E5. split; intros H; [apply E4|apply E5]; eauto.
      * intros [= <-]. apply is_p2sh_false in E3. apply is_witness_program_false in Ep.
        apply OKBare; [assumption|]. intros v g H. apply Ep. eauto.
  - intros H. unfold kind_of. destruct H as [H1 H2|h H|h H|i h H Hr Hi|i h H Hr Hi|H Hr|k H].
    + rewrite (proj2 (is_p2sh_false s)) by assumption.
      rewrite (proj2 (is_witness_program_false s)); [reflexivity|]. intros (v & g & H). exact (H2 _ _ H).
    + rewrite (proj2 (is_witness_program_iff s)) by (destruct H; eauto). cbn [orb negb].
      now rewrite (proj2 (is_p2wpkh_iff s)) by eauto.
    + rewrite (proj2 (is_witness_program_iff s)) by (destruct H; eauto). cbn [orb negb].
      rewrite (proj2 (is_p2wpkh_false s)) by (intros [h' H']; exact (wpkh_wsh _ _ _ H' H)).
      now rewrite (proj2 (is_p2wsh_iff s)) by eauto.
    + rewrite (proj2 (is_p2sh_iff s)) by assumption. rewrite orb_true_r. cbn [negb].
      rewrite (proj2 (is_p2wpkh_false s)) by (intros [h' [H' _]]; exact (p2sh_not_program _ _ _ H H')).
      rewrite (proj2 (is_p2wsh_false s)) by (intros [h' [H' _]]; exact (p2sh_not_program _ _ _ H H')).
      subst r. now rewrite (proj2 (is_p2wpkh_iff i)) by eauto.
    + rewrite (proj2 (is_p2sh_iff s)) by assumption. rewrite orb_true_r. cbn [negb].
      rewrite (proj2 (is_p2wpkh_false s)) by (intros [h' [H' _]]; exact (p2sh_not_program _ _ _ H H')).
      rewrite (proj2 (is_p2wsh_false s)) by (intros [h' [H' _]]; exact (p2sh_not_program _ _ _ H H')).
      subst r. rewrite (proj2 (is_p2wpkh_false i)) by (intros [h' H']; exact (wpkh_wsh _ _ _ H' Hi)).
      now rewrite (proj2 (is_p2wsh_iff i)) by eauto.
    + rewrite (proj2 (is_p2sh_iff s)) by assumption. rewrite orb_true_r. cbn [negb].
      rewrite (proj2 (is_p2wpkh_false s)) by (intros [h' [H' _]]; exact (p2sh_not_program _ _ _ H H')).
      rewrite (proj2 (is_p2wsh_false s)) by (intros [h' [H' _]]; exact (p2sh_not_program _ _ _ H H')).
      destruct r as [i|]; [|reflexivity].
      rewrite (proj2 (is_p2wpkh_false i)) by (intros [h' H']; exact (proj1 (Hr i h' eq_refl) H')).
      now rewrite (proj2 (is_p2wsh_false i)) by (intros [h' H']; exact (proj2 (Hr i h' eq_refl) H')).
    + rewrite (proj2 (is_witness_program_iff s)) by (destruct H; eauto). cbn [orb negb].
      rewrite (proj2 (is_p2wpkh_false s)).
      2:{ intros [h' [H' _]]. destruct H as [H _]. now destruct (program_inj _ _ _ _ _ H H'). }
      rewrite (proj2 (is_p2wsh_false s)).
      2:{ intros [h' [H' _]]. destruct H as [H _]. now destruct (program_inj _ _ _ _ _ H H'). }
      rewrite (proj2 (is_p2sh_false s)).
      2:{ intros H'. destruct H as [H _]. exact (p2sh_not_program _ _ _ H' H). }
      now rewrite (proj2 (is_p2tr_iff s)) by eauto.
Qed.
Lemma kind_unique s r o o' : output_kind s r o -> output_kind s r o' -> o = o'.
Proof. rewrite <- !kind_of_iff. congruence. Qed.
Lemma kind_of_none s r : kind_of s r = None <-> forall o, ~ output_kind s r o.
Proof.
  split.
  - intros H o Ho. apply kind_of_iff in Ho. congruence.
  - intros H. destruct (kind_of s r) as [o|] eqn:E; [|reflexivity]. apply kind_of_iff in E. now apply H in E.
Qed.

(** ** Output types of inputs *)

Lemma checked_cases p n :
  checked_input p n =
    if blen (p_inputs p) <=? n then Err (IdxInputs n (blen (p_inputs p)))
    else if g_input_count (p_global p) <=? n then Err (IdxCount n (g_input_count (p_global p)))
    else match nth_error (p_inputs p) (N.to_nat n) with Some i => Ok i | None => Panic end.
Proof.
  unfold checked_input, check_input_index, fail_if. destruct (_ <=? n); [reflexivity|]. destruct (_ <=? n); [reflexivity|].
  cbn [bind]. now rewrite nth_N_nth.
Qed.
Lemma checked_iff p n i : checked_input p n = Ok i <-> input_at p n i.
Proof.
  rewrite checked_cases. unfold input_at, blen. destruct (N.of_nat (length (p_inputs p)) <=? n) eqn:E1.
  - split; [discriminate|]. intros [H _]. assert (H' : nth_error (p_inputs p) (N.to_nat n) <> None) by congruence.
    apply nth_error_Some in H'. lia.
  - destruct (g_input_count (p_global p) <=? n) eqn:E2; [split; [discriminate|]; intros [_ H]; lia|].
    destruct (nth_error _ _) as [j|] eqn:E.
    + split; [intros H; inj H; split; auto; lia|intros [H _]; congruence].
    + apply nth_error_None in E. lia.
Qed.
Lemma checked_np p n : checked_input p n <> Panic.
Proof.
  rewrite checked_cases. unfold blen. destruct (N.of_nat (length (p_inputs p)) <=? n) eqn:E1; [discriminate|].
  destruct (g_input_count (p_global p) <=? n); [discriminate|]. destruct (nth_error _ _) eqn:E; [discriminate|]. apply nth_error_None in E. lia.
Qed.
Lemma input_at_fun p n i j : input_at p n i -> input_at p n j -> i = j.
Proof. intros [H _] [H' _]. congruence. Qed.
Lemma funds_fun i u v : funds i u -> funds i v -> u = v.
Proof. rewrite <- !funding_ok_iff. congruence. Qed.

(** Everything that is looked at to sign an input. *)
Definition slot_res (p : psbt) (n : N) : res signerr (input * txout) :=
  i <- map_err SEIndexOutOfBounds (checked_input p n) ;;
  u <- map_err SEFundingUtxo (input_funding_utxo i) ;;
  Ok (i, u).
Lemma slot_ok p n i u : slot_res p n = Ok (i, u) <-> input_at p n i /\ funds i u.
Proof.
  unfold slot_res. split.
  - intros H. apply bind_ok in H as (j & Hj & H). apply bind_ok in H as (v & Hv & H).
    apply map_err_ok in Hj, Hv. inj H. injection H as -> ->. apply checked_iff in Hj. apply funding_ok_iff in Hv. auto.
  - intros [H1 H2]. apply checked_iff in H1. apply funding_ok_iff in H2. rewrite H1. cbn [map_err bind]. now rewrite H2.
Qed.
Lemma slot_np p n : slot_res p n <> Panic.
Proof.
  unfold slot_res. pose proof (checked_np p n) as H. destruct (checked_input p n) as [i| |]; cbn [map_err bind]; try congruence.
  pose proof (funding_nopanic i) as H'. destruct (input_funding_utxo i); cbn [map_err bind]; congruence.
Qed.

Section Types.
Context `{X : Ext} `{C : Cfg} `{S : SignExt}.

Lemma output_type_slot p n :
  psbt_output_type p n = '(i, u) <- slot_res p n ;; ok_or (kind_of (to_script u) (in_redeem_script i)) SEUnknownOutputType.
Proof.
  unfold psbt_output_type, slot_res. destruct (checked_input p n) as [i| |]; cbn [map_err bind]; auto.
  destruct (input_funding_utxo i) as [u| |]; cbn [map_err bind]; auto.
  unfold kind_of. destruct (negb _); auto. destruct (is_p2wpkh _); auto. destruct (is_p2wsh _); auto.
  destruct (is_p2sh _); [|destruct (is_p2tr _); auto]. destruct (in_redeem_script i) as [r|]; auto.
  destruct (is_p2wpkh r); auto. destruct (is_p2wsh r); auto.
Qed.
Lemma algorithm_slot p n :
  psbt_signing_algorithm p n =
  '(i, u) <- slot_res p n ;;
  match kind_of (to_script u) (in_redeem_script i) with
  | Some o => Ok (outtype_algorithm o) | None => Err SEUnknownOutputType end.
Proof.
  unfold psbt_signing_algorithm. rewrite output_type_slot. destruct (slot_res p n) as [[i u]| |]; cbn [bind]; auto.
  destruct (kind_of _ _); reflexivity.
Qed.
Lemma algorithm_np p n : psbt_signing_algorithm p n <> Panic.
Proof.
  rewrite algorithm_slot. pose proof (slot_np p n). destruct (slot_res p n) as [[i u]| |]; cbn [bind]; try congruence.
  destruct (kind_of _ _); discriminate.
Qed.
Lemma algorithm_ecdsa p n : psbt_signing_algorithm p n = Ok AlgoEcdsa <-> exists i, ecdsa_input p n i.
Proof.
  rewrite algorithm_slot. unfold ecdsa_input. split.
  - destruct (slot_res p n) as [[i u]| |] eqn:E; cbn [bind]; try discriminate. apply slot_ok in E as [E1 E2].
    destruct (kind_of _ _) as [o|] eqn:Ek; [|discriminate]. apply kind_of_iff in Ek. intros H. inj H.
    exists i. split; [assumption|]. exists u, o. repeat split; auto. intros ->. discriminate.
  - intros (i & Hi & u & o & Hu & Ho & Hne). rewrite (proj2 (slot_ok p n i u)) by auto. cbn [bind].
    apply kind_of_iff in Ho. rewrite Ho. destruct o; auto. congruence.
Qed.

(** ** Digests *)

Definition digest_ty (i : input) : option N := input_ecdsa_hash_ty i.
Lemma ecdsa_std_iff n m : ecdsa_from_standard n = Some m <-> m = n /\ In n [1; 2; 3; 129; 130; 131].
Proof.
  unfold ecdsa_from_standard, sighash_ecdsa_ty. split.
  - intros H. assert (Hl : n = 1 \/ n = 2 \/ n = 3 \/ n = 129 \/ n = 130 \/ n = 131).
    { unfold ecdsa_from_std in H. destruct n as [|q]; [discriminate|]. do 8 (destruct q as [q|q|]; try discriminate; auto 12). }
    repeat destruct Hl as [->|Hl]; try subst n; cbn in H; inj H; cbn; auto 12.
  - intros [-> H]. cbn in H. repeat destruct H as [<-|H]; try contradiction; reflexivity.
Qed.
Lemma hash_ty_iff i ty : input_ecdsa_hash_ty i = Some ty <-> type_of_input i ty.
Proof.
  unfold input_ecdsa_hash_ty, type_of_input. destruct (in_sighash_type i) as [n|].
  - rewrite ecdsa_std_iff. split.
    + intros [-> H]. auto.
    + intros [H [E|[E _]]]; [|discriminate]. injection E as ->. auto.
  - unfold SIGHASH_ALL. split.
    + intros [= <-]. cbn. auto.
    + intros [_ [E|[_ ->]]]; [discriminate|reflexivity].
Qed.
Lemma type_fun i a b : type_of_input i a -> type_of_input i b -> a = b.
Proof. rewrite <- !hash_ty_iff. congruence. Qed.

Lemma sighash_slot p n t :
  psbt_sighash_ecdsa p n t =
  '(i, u) <- slot_res p n ;;
  match kind_of (to_script u) (in_redeem_script i) with
  | None => Err SEUnknownOutputType
  | Some Tr => Err SEWrongSigningAlgorithm
  | Some o =>
      ty <- ok_or (input_ecdsa_hash_ty i) SEInvalidSighashType ;;
      m <- match o with
           | Bare => expect (legacy_signature_hash t n (to_script u) ty)
           | Sh => c <- ok_or (in_redeem_script i) SEMissingRedeemScript ;; expect (legacy_signature_hash t n c ty)
           | Wpkh => p2wpkh_signature_hash t n (to_script u) (to_value u) ty
           | ShWpkh => c <- expect (in_redeem_script i) ;; p2wpkh_signature_hash t n c (to_value u) ty
           | Wsh | ShWsh =>
               c <- ok_or (in_witness_script i) SEMissingWitnessScript ;;
               ok_or (p2wsh_signature_hash t n c (to_value u) ty) SESegwitV0Sighash
           | Tr => Err SEUnsupported
           end ;;
      Ok (m, ty)
  end.
Proof.
  unfold psbt_sighash_ecdsa. rewrite algorithm_slot, output_type_slot.
  unfold slot_res. destruct (checked_input p n) as [i| |]; cbn [map_err bind]; auto.
  destruct (input_funding_utxo i) as [u| |]; cbn [map_err bind]; auto.
  destruct (kind_of _ _) as [o|]; cbn [bind ok_or]; auto.
  destruct o; cbn [outtype_algorithm fail_if bind]; auto;
    destruct (input_ecdsa_hash_ty i) as [ty|]; cbn [ok_or bind]; auto.
  - now destruct (in_witness_script i); cbn [ok_or bind].
  - now destruct (in_redeem_script i); cbn [expect bind].
  - now destruct (in_witness_script i); cbn [ok_or bind].
  - now destruct (in_redeem_script i); cbn [ok_or bind].
Qed.

Lemma message_kind t n i u ty m : message t n i u ty m ->
  exists o, output_kind (to_script u) (in_redeem_script i) o /\ o <> Tr.
Proof.
  intros [H|r H Hr|h H|r h H Hr Hh|h w H Hw|r h w H Hr Hh Hw].
  - exists Bare. split; [assumption|discriminate].
  - exists Sh. split; [assumption|discriminate].
  - exists Wpkh. split; [now apply OKWpkh with h|discriminate].
  - exists ShWpkh. split; [now apply OKShWpkh with r h|discriminate].
  - exists Wsh. split; [now apply OKWsh with h|discriminate].
  - exists ShWsh. split; [now apply OKShWsh with r h|discriminate].
Qed.

(** The digest of an input, when the index is one of the transaction. *)
Lemma sighash_iff p n t m ty : n < blen (tx_input t) -> (psbt_sighash_ecdsa p n t = Ok (m, ty) <-> to_sign p t n m ty).
Proof.
  intros Hn. rewrite sighash_slot. unfold to_sign.
  unfold legacy_signature_hash, p2wpkh_signature_hash, p2wsh_signature_hash. replace (n <? blen (tx_input t)) with true by lia.
  split.
  - intros H. apply bind_ok in H as ([i u] & Hs & H). apply slot_ok in Hs as [Hi Hu].
    destruct (kind_of _ _) as [o|] eqn:Ek; [|discriminate]. pose proof (proj1 (kind_of_iff _ _ _) Ek) as Ho.
    assert (Hne : o <> Tr) by (intros ->; discriminate).
    assert (H' : ty' <- ok_or (input_ecdsa_hash_ty i) SEInvalidSighashType ;;
      m <- match o with
           | Bare => Ok (legacy_digest t n (to_script u) ty')
           | Sh => c <- ok_or (in_redeem_script i) SEMissingRedeemScript ;; Ok (legacy_digest t n c ty')
           | Wpkh => code <- ok_or (p2wpkh_script_code (to_script u)) SENotP2wpkhScript ;; Ok (segwit_digest t n code (to_value u) ty')
           | ShWpkh => c <- expect (in_redeem_script i) ;; code <- ok_or (p2wpkh_script_code c) SENotP2wpkhScript ;; Ok (segwit_digest t n code (to_value u) ty')
           | Wsh | ShWsh =>
               c <- ok_or (in_witness_script i) SEMissingWitnessScript ;; Ok (segwit_digest t n c (to_value u) ty')
           | Tr => Err SEUnsupported
           end ;;
      Ok (m, ty') = Ok (m, ty)).
    { destruct o; try exact H. congruence. }
    clear H. apply bind_ok in H' as (ty' & Hty & H). apply bind_ok in H as (m' & Hm & H). inj H. injection H as -> ->.
    assert (Hty' : input_ecdsa_hash_ty i = Some ty) by (destruct (input_ecdsa_hash_ty i); cbn in Hty; [inj Hty; reflexivity|discriminate]).
    apply hash_ty_iff in Hty'. exists i, u. repeat split; auto; try apply Hi; try apply Hty'. clear Hty Hne.
    destruct o.
    + inj Hm. now apply MBare.
    + inversion Ho as [|h Hh| | | | |]. apply bind_ok in Hm as (c & Hc & Hm). inj Hm.
      destruct (p2wpkh_script_code _) eqn:Ec in Hc; cbn in Hc; [inj Hc|discriminate].
      apply script_code_iff in Ec as (h' & Hh' & ->). now apply MWpkh.
    + inversion Ho as [| |h Hh| | | |]. apply bind_ok in Hm as (c & Hc & Hm). inj Hm.
      destruct (in_witness_script i) eqn:Ew in Hc; cbn in Hc; [inj Hc|discriminate]. now apply MWsh with h.
    + inversion Ho as [| | |r h Hp Hr Hh| | |]. rewrite Hr in Hm. cbn [expect bind] in Hm.
      apply bind_ok in Hm as (c & Hc & Hm). inj Hm.
      destruct (p2wpkh_script_code _) eqn:Ec in Hc; cbn in Hc; [inj Hc|discriminate].
      apply script_code_iff in Ec as (h' & Hh' & ->). now apply MShWpkh with r.
    + inversion Ho as [| | | |r h Hp Hr Hh| |]. apply bind_ok in Hm as (c & Hc & Hm). inj Hm.
      destruct (in_witness_script i) eqn:Ew in Hc; cbn in Hc; [inj Hc|discriminate]. now apply MShWsh with r h.
    + apply bind_ok in Hm as (c & Hc & Hm). inj Hm.
      destruct (in_redeem_script i) eqn:Er in Hc; cbn in Hc; [inj Hc|discriminate]. apply MSh; [rewrite Er in *|]; assumption.
    + discriminate.
  - intros (i & u & Hi & Hu & Hty & Hm). rewrite (proj2 (slot_ok p n i u)) by auto. cbn [bind].
    apply hash_ty_iff in Hty. rewrite Hty. cbn [ok_or bind].
    destruct Hm as [H|r H Hr|h H|r h H Hr Hh|h w H Hw|r h w H Hr Hh Hw].
    + now rewrite (proj2 (kind_of_iff _ _ _) H).
    + rewrite (proj2 (kind_of_iff _ _ _) H), Hr. reflexivity.
    + rewrite (proj2 (kind_of_iff _ _ Wpkh)) by now apply OKWpkh with h.
      rewrite (proj2 (script_code_iff _ (p2pkh_script h))) by eauto. reflexivity.
    + rewrite (proj2 (kind_of_iff _ _ ShWpkh)) by now apply OKShWpkh with r h.
      rewrite Hr. cbn [expect bind]. rewrite (proj2 (script_code_iff _ (p2pkh_script h))) by eauto. reflexivity.
    + rewrite (proj2 (kind_of_iff _ _ Wsh)) by now apply OKWsh with h. now rewrite Hw.
    + rewrite (proj2 (kind_of_iff _ _ ShWsh)) by now apply OKShWsh with r h. now rewrite Hw.
Qed.
(** Panics: only for an index that the transaction does not have. *)
Lemma sighash_np p n t : n < blen (tx_input t) -> psbt_sighash_ecdsa p n t <> Panic.
Proof.
  intros Hn. rewrite sighash_slot. pose proof (slot_np p n).
  unfold legacy_signature_hash, p2wpkh_signature_hash, p2wsh_signature_hash. replace (n <? blen (tx_input t)) with true by lia.
  destruct (slot_res p n) as [[i u]| |]; cbn [bind]; try congruence.
  destruct (kind_of _ _) as [o|] eqn:Ek; [|discriminate]. apply kind_of_iff in Ek.
  destruct o; try discriminate; (destruct (input_ecdsa_hash_ty i); cbn [ok_or bind]; [|discriminate]).
  - cbn. discriminate.
  - destruct (p2wpkh_script_code _); cbn; discriminate.
  - destruct (in_witness_script i); cbn; discriminate.
  - inversion Ek as [| | |r h Hp Hr Hh| | |]. rewrite Hr. cbn [expect bind]. destruct (p2wpkh_script_code _); cbn; discriminate.
  - destruct (in_witness_script i); cbn; discriminate.
  - destruct (in_redeem_script i); cbn; discriminate.
Qed.

(** ** Keys *)

Lemma find_key_iff k pk src sk : find_key k pk src = Some sk <-> has_key k pk src sk.
Proof.
  unfold find_key, has_key. destruct (k (KRBip32 src)) as [e|[sk'|]] eqn:E.
  - destruct (k (KRPubkey _)) as [e'|[sk'|]] eqn:E'; split; intros H; try discriminate.
    + destruct H as [H|[_ H]]; discriminate.
    + right. split; [discriminate|congruence].
    + destruct H as [H|[_ H]]; [discriminate|congruence].
    + destruct H as [H|[_ H]]; discriminate.
  - split; [intros H; left; congruence|]. intros [H|[H _]]; [congruence|]. now destruct (H sk').
  - destruct (k (KRPubkey _)) as [e'|[sk'|]] eqn:E'; split; intros H; try discriminate.
    + destruct H as [H|[_ H]]; discriminate.
    + right. split; [discriminate|congruence].
    + destruct H as [H|[_ H]]; [discriminate|congruence].
    + destruct H as [H|[_ H]]; discriminate.
Qed.
Lemma find_key_none k pk src : find_key k pk src = None <-> forall sk, ~ has_key k pk src sk.
Proof.
  split.
  - intros H sk Hk. apply find_key_iff in Hk. congruence.
  - intros H. destruct (find_key k pk src) eqn:E; [|reflexivity]. apply find_key_iff in E. now apply H in E.
Qed.
(** The keys found for a list of derivations. *)
Fixpoint found (k : provider) (l : list (bytes * keysource)) : list privkey :=
  match l with
  | [] => []
  | (pk, src) :: r => match find_key k pk src with Some sk => sk :: found k r | None => found k r end
  end.
Lemma found_iff k l sks : keys_for k l sks <-> found k l = sks.
Proof.
  split.
  - induction 1 as [|pk src l sk sks H _ IH|pk src l sks H _ IH]; cbn [found]; [reflexivity| |].
    + apply find_key_iff in H. now rewrite H, IH.
    + apply find_key_none in H. now rewrite H.
  - intros <-. induction l as [|[pk src] l IH]; cbn [found]; [constructor|].
    destruct (find_key k pk src) eqn:E; constructor; auto; [now apply find_key_iff|now apply find_key_none].
Qed.

(** ** The loop over the derivations *)

Definition add_sig (m : bytes) (ty : N) (sigs : list (pubkey * esig)) (sk : privkey) : list (pubkey * esig) :=
  m_put sk_pubkey (public_of sk) (ESig (sign_ecdsa m (pv_secret sk)) ty) sigs.
Definition add_sigs (m : bytes) (ty : N) (sigs : list (pubkey * esig)) (sks : list privkey) : list (pubkey * esig) :=
  fold_left (add_sig m ty) sks sigs.

Lemma sign_loop_ok {E} k m ty l : forall sigs used,
  sign_loop (E := E) k (Ok (m, ty)) l sigs used = Ok (add_sigs m ty sigs (found k l), used ++ map public_of (found k l)).
Proof.
  induction l as [|[pk src] l IH]; intros sigs used; cbn [sign_loop found].
  - cbn. now rewrite app_nil_r.
  - destruct (find_key k pk src) as [sk|]; [|apply IH]. cbn [bind]. rewrite IH. cbn [map add_sigs fold_left].
    rewrite <- app_assoc. reflexivity.
Qed.
Lemma sign_loop_err {E} k (e : E) l : forall sigs used,
  sign_loop k (Err e) l sigs used = if is_empty (found k l) then Ok (sigs, used) else Err e.
Proof.
  induction l as [|[pk src] l IH]; intros sigs used; cbn [sign_loop found]; [reflexivity|].
  destruct (find_key k pk src) as [sk|]; [reflexivity|apply IH].
Qed.

(** What happens to an input. *)
Inductive outcome : Type :=
| Skipped
| Failed (e : signerr)
| Paniced
| Signed (m : bytes) (ty : N) (sks : list privkey).
Definition outcome_of (k : provider) (t : tx) (p : psbt) (n : N) : outcome :=
  match psbt_signing_algorithm p n, nth_error (p_inputs p) (N.to_nat n) with
  | Ok AlgoEcdsa, Some i =>
      match psbt_sighash_ecdsa p n t with
      | Ok (m, ty) => Signed m ty (found k (in_bip32_derivations i))
      | Err e => if is_empty (found k (in_bip32_derivations i)) then Paniced else Failed e
      | Panic => Paniced
      end
  | _, _ => Skipped
  end.
Definition sign_input (m : bytes) (ty : N) (sks : list privkey) (i : input) : input :=
  set_in_partial_sigs (add_sigs m ty (in_partial_sigs i) sks) i.
Definition sign_at (n : N) (m : bytes) (ty : N) (sks : list privkey) (p : psbt) : psbt :=
  match nth_error (p_inputs p) (N.to_nat n) with
  | Some i => clear_tx_modifiable ty (set_p_inputs (set_nth (N.to_nat n) (sign_input m ty sks i) (p_inputs p)) p)
  | None => p
  end.

Lemma bip32_sign_outcome k t p n : psbt_signing_algorithm p n = Ok AlgoEcdsa ->
  bip32_sign_ecdsa k n t p =
  match outcome_of k t p n with
  | Signed m ty sks => Ok (sign_at n m ty sks p, map public_of sks)
  | Failed e => Err e
  | _ => Panic
  end.
Proof.
  intros H. unfold bip32_sign_ecdsa, outcome_of. rewrite H.
  apply algorithm_ecdsa in H as (i & (Hi & _) & _). unfold sign_at. rewrite Hi, nth_N_nth, Hi. cbn [expect bind].
  destruct (psbt_sighash_ecdsa p n t) as [[m ty]|e|]; [| |reflexivity].
  - rewrite sign_loop_ok. cbn [bind expect app]. reflexivity.
  - rewrite sign_loop_err. destruct (is_empty _); reflexivity.
Qed.

(** ** What signing leaves unchanged *)

Lemma same_but_sigs_refl i : same_but_sigs i i.
Proof. unfold same_but_sigs. destruct i; reflexivity. Qed.
Lemma same_but_sigs_trans i j l : same_but_sigs i j -> same_but_sigs j l -> same_but_sigs i l.
Proof. unfold same_but_sigs. intros H1 H2. rewrite H2, H1. reflexivity. Qed.
Lemma sbs_refl p : same_but_signed p p.
Proof.
  constructor; [reflexivity| |destruct (p_global p); reflexivity].
  induction (p_inputs p); constructor; auto using same_but_sigs_refl.
Qed.
Lemma F2_trans {A} (R : A -> A -> Prop) : (forall a b c, R a b -> R b c -> R a c) ->
  forall l1 l2 l3, Forall2 R l1 l2 -> Forall2 R l2 l3 -> Forall2 R l1 l3.
Proof.
  intros HR l1 l2 l3 H. revert l3. induction H; intros l3 H'; inversion H'; subst; constructor; eauto.
Qed.
Lemma sbs_trans p q r : same_but_signed p q -> same_but_signed q r -> same_but_signed p r.
Proof.
  intros [O1 I1 G1] [O2 I2 G2]. constructor; [congruence| |].
  - exact (F2_trans _ same_but_sigs_trans _ _ _ I1 I2).
  - rewrite G2, G1. reflexivity.
Qed.
Lemma F2_nth {A B} (R : A -> B -> Prop) l l' : Forall2 R l l' -> forall n,
  match nth_error l n, nth_error l' n with Some a, Some b => R a b | None, None => True | _, _ => False end.
Proof. induction 1; intros [|n]; cbn; auto. apply IHForall2. Qed.
Lemma F2_len {A B} (R : A -> B -> Prop) l l' : Forall2 R l l' -> length l = length l'.
Proof. induction 1; cbn; auto. Qed.

(** The fields of an input that are looked at. *)
Lemma slot_same p q n : same_but_signed p q ->
  match slot_res p n, slot_res q n with
  | Ok (i, u), Ok (j, v) => same_but_sigs i j /\ u = v
  | Err e, Err e' => e = e'
  | Panic, Panic => True
  | _, _ => False
  end.
Proof.
  intros [HO HI HG]. unfold slot_res. rewrite !checked_cases. unfold blen. rewrite <- (F2_len _ _ _ HI), HG.
  cbn [set_g_tx_modifiable_flags g_input_count].
  destruct (N.of_nat (length (p_inputs p)) <=? n); [reflexivity|].
  destruct (g_input_count (p_global p) <=? n); [reflexivity|].
  pose proof (F2_nth _ _ _ HI (N.to_nat n)) as H.
  destruct (nth_error (p_inputs p) (N.to_nat n)) as [i|], (nth_error (p_inputs q) (N.to_nat n)) as [j|]; try contradiction; [|exact I].
  cbn [map_err bind]. assert (E : input_funding_utxo j = input_funding_utxo i) by (rewrite H; reflexivity).
  rewrite E. destruct (input_funding_utxo i); cbn [map_err bind]; auto.
Qed.
Lemma algorithm_same p q n : same_but_signed p q -> psbt_signing_algorithm q n = psbt_signing_algorithm p n.
Proof.
  intros H. rewrite !algorithm_slot. pose proof (slot_same p q n H) as Hs.
  destruct (slot_res p n) as [[i u]| |], (slot_res q n) as [[j v]| |]; try contradiction; cbn [bind]; [|congruence|reflexivity].
  destruct Hs as [Hs ->]. rewrite Hs. reflexivity.
Qed.
Lemma sighash_same p q n t : same_but_signed p q -> psbt_sighash_ecdsa q n t = psbt_sighash_ecdsa p n t.
Proof.
  intros H. rewrite !sighash_slot. pose proof (slot_same p q n H) as Hs.
  destruct (slot_res p n) as [[i u]| |], (slot_res q n) as [[j v]| |]; try contradiction; cbn [bind]; [|congruence|reflexivity].
  destruct Hs as [Hs ->]. rewrite Hs. reflexivity.
Qed.
Lemma outcome_same k t p q n : same_but_signed p q -> outcome_of k t q n = outcome_of k t p n.
Proof.
  intros H. unfold outcome_of. rewrite (algorithm_same p q n H), (sighash_same p q n t H).
  pose proof (F2_nth _ _ _ (sb_inputs _ _ H) (N.to_nat n)) as Hs.
  destruct (nth_error (p_inputs p) (N.to_nat n)) as [i|], (nth_error (p_inputs q) (N.to_nat n)) as [j|]; try contradiction; auto.
  rewrite Hs. reflexivity.
Qed.
Lemma unsigned_tx_same p q : same_but_signed p q -> unsigned_tx q = unsigned_tx p.
Proof.
  intros [HO HI HG]. unfold unsigned_tx.
  assert (E1 : determine_lock_time q = determine_lock_time p).
  { apply determine_ext; [rewrite HG; reflexivity|]. clear - HI. induction HI as [|i j l l' H _ IH]; cbn [map]; [reflexivity|].
    rewrite IH, H. reflexivity. }
  assert (E2 : map input_unsigned_tx_in (p_inputs q) = map input_unsigned_tx_in (p_inputs p)).
  { clear - HI. induction HI as [|i j l l' H _ IH]; cbn [map]; [reflexivity|]. rewrite IH, H. reflexivity. }
  rewrite E1, E2, HG, HO. reflexivity.
Qed.

(** ** The loop over the inputs *)

Lemma sign_at_same n m ty sks p : same_but_signed p (sign_at n m ty sks p).
Proof.
  unfold sign_at. destruct (nth_error (p_inputs p) (N.to_nat n)) as [i|] eqn:E; [|apply sbs_refl].
  destruct (clear_tx_rest ty (set_p_inputs (set_nth (N.to_nat n) (sign_input m ty sks i) (p_inputs p)) p)) as [f ->].
  constructor; cbn [p_outputs p_inputs p_global set_p_inputs set_g_tx_modifiable_flags g_tx_modifiable_flags]; [reflexivity| |reflexivity].
  revert E. generalize (N.to_nat n). induction (p_inputs p) as [|j l IH]; intros [|a] E; cbn [set_nth nth_error] in *;
    try discriminate; constructor; auto using same_but_sigs_refl.
  - injection E as ->. unfold same_but_sigs, sign_input. reflexivity.
  - clear. induction l; constructor; auto using same_but_sigs_refl.
Qed.
Lemma sign_at_nth n m ty sks p j :
  nth_error (p_inputs (sign_at n m ty sks p)) j =
  if (j =? N.to_nat n)%nat then option_map (sign_input m ty sks) (nth_error (p_inputs p) j) else nth_error (p_inputs p) j.
Proof.
  unfold sign_at. destruct (nth_error (p_inputs p) (N.to_nat n)) as [i|] eqn:E.
  - destruct (clear_tx_rest ty (set_p_inputs (set_nth (N.to_nat n) (sign_input m ty sks i) (p_inputs p)) p)) as [f ->].
    cbn [p_inputs set_p_inputs]. destruct (Nat.eqb_spec j (N.to_nat n)) as [->|Hj].
    + rewrite E. cbn [option_map]. apply set_nth_same. apply nth_error_Some. congruence.
    + apply set_nth_other. congruence.
  - destruct (Nat.eqb_spec j (N.to_nat n)) as [->|Hj]; [|reflexivity]. now rewrite E.
Qed.

Section Loop.
Context (k : provider) (t : tx) (p0 : psbt).

Definition step (q : psbt) (n : N) : psbt :=
  match outcome_of k t p0 n with Signed m ty sks => sign_at n m ty sks q | _ => q end.
Definition used_of (n : N) : list (N * list pubkey) :=
  match outcome_of k t p0 n with Signed m ty sks => [(n, map public_of sks)] | _ => [] end.
Definition error_of (n : N) : list (N * signerr) :=
  match outcome_of k t p0 n with Failed e => [(n, e)] | _ => [] end.
Definition panics (n : N) : bool := match outcome_of k t p0 n with Paniced => true | _ => false end.

Lemma step_same q n : same_but_signed p0 q -> same_but_signed p0 (step q n).
Proof.
  intros H. unfold step. destruct (outcome_of k t p0 n); auto. eapply sbs_trans; [exact H|]. apply sign_at_same.
Qed.
Lemma sign_inputs_eq idx : forall q used errs, same_but_signed p0 q ->
  sign_inputs k t idx q used errs =
  if existsb panics idx then Panic
  else Ok (fold_left step idx q, used ++ flat_map used_of idx, errs ++ flat_map error_of idx).
Proof.
  induction idx as [|n idx IH]; intros q used errs H; cbn [sign_inputs existsb fold_left flat_map].
  - now rewrite !app_nil_r.
  - assert (Ho : outcome_of k t q n = outcome_of k t p0 n) by now apply outcome_same.
    pose proof (algorithm_np q n) as Hn.
    assert (Hskip : psbt_signing_algorithm q n <> Ok AlgoEcdsa -> outcome_of k t p0 n = Skipped).
    { intros Ha. rewrite <- Ho. unfold outcome_of. destruct (psbt_signing_algorithm q n) as [[]| |]; auto. congruence. }
    destruct (psbt_signing_algorithm q n) as [[]| |] eqn:Ea; [| | |congruence].
    2,3: unfold panics at 1, step at 2, used_of at 1, error_of at 1; rewrite (Hskip ltac:(discriminate));
         cbn [orb app]; apply IH; assumption.
    rewrite (bip32_sign_outcome _ _ _ _ Ea), Ho.
    assert (Hs : outcome_of k t q n <> Skipped).
    { unfold outcome_of. rewrite Ea. apply algorithm_ecdsa in Ea as (i & (Hi & _) & _). rewrite Hi.
      destruct (psbt_sighash_ecdsa q n t) as [[]| |]; try discriminate. destruct (is_empty _); discriminate. }
    rewrite Ho in Hs. unfold panics at 1, step at 2, used_of at 1, error_of at 1.
    pose proof (step_same q n H) as Hst. unfold step in Hst.
    destruct (outcome_of k t p0 n) as [|e| |m ty sks]; cbn [orb app]; [congruence| |reflexivity|].
    + rewrite IH by assumption. destruct (existsb panics idx); [reflexivity|]. now rewrite <- app_assoc.
    + rewrite IH by assumption. destruct (existsb panics idx); [reflexivity|]. now rewrite <- app_assoc.
Qed.

Definition sign_outcome (n : N) (i : input) : input :=
  match outcome_of k t p0 n with Signed m ty sks => sign_input m ty sks i | _ => i end.
Lemma step_nth q n j :
  nth_error (p_inputs (step q n)) j =
  if (j =? N.to_nat n)%nat then option_map (sign_outcome n) (nth_error (p_inputs q) j) else nth_error (p_inputs q) j.
Proof.
  unfold step, sign_outcome. destruct (outcome_of k t p0 n); try apply sign_at_nth;
    (destruct (_ =? _)%nat; [|reflexivity]); now destruct (nth_error (p_inputs q) j).
Qed.
Lemma steps_same idx : forall q, same_but_signed p0 q -> same_but_signed p0 (fold_left step idx q).
Proof. induction idx as [|n idx IH]; intros q H; cbn [fold_left]; [assumption|]. apply IH, step_same, H. Qed.
Lemma steps_nth idx : forall q, NoDup idx -> forall n,
  nth_error (p_inputs (fold_left step idx q)) (N.to_nat n) =
  if existsb (N.eqb n) idx then option_map (sign_outcome n) (nth_error (p_inputs q) (N.to_nat n))
  else nth_error (p_inputs q) (N.to_nat n).
Proof.
  induction idx as [|a idx IH]; intros q Hd n; cbn [fold_left existsb]; [reflexivity|].
  apply NoDup_cons_iff in Hd as [Ha Hd]. rewrite IH by assumption. rewrite step_nth.
  destruct (N.eqb_spec n a) as [->|Hn]; cbn [orb].
  - replace (existsb (N.eqb a) idx) with false; [now rewrite Nat.eqb_refl|].
    symmetry. apply not_true_is_false. intros H. apply existsb_exists in H as (b & Hb & Hab). apply N.eqb_eq in Hab. now subst.
  - replace (N.to_nat n =? N.to_nat a)%nat with false; [reflexivity|]. symmetry. apply Nat.eqb_neq. lia.
Qed.

(** *** Flags *)

Lemma fa_refl f : flags_after (fun _ => False) f f.
Proof. constructor; try tauto; try (intuition; contradiction). split; [auto|]. intros [H|(ty & [] & _)]. exact H. Qed.
Lemma fa_trans P Q f g h : flags_after P f g -> flags_after Q g h -> flags_after (fun ty => P ty \/ Q ty) f h.
Proof.
  intros [A1 A2 A3 A4] [B1 B2 B3 B4]. constructor.
  - rewrite B1, A1. split; [intros [[H1 H2] H3]; split; [exact H1|]; intros ty [H|H]; auto|intros [H1 H2]; auto].
  - rewrite B2, A2. split; [intros [[H1 H2] H3]; split; [exact H1|]; intros ty [H|H]; auto|intros [H1 H2]; auto].
  - rewrite B3, A3. split.
    + intros [[H|(ty & H & H')]|(ty & H & H')]; eauto.
    + intros [H|(ty & [H|H] & H')]; eauto.
  - intros b Hb. now rewrite B4, A4.
Qed.
Lemma fa_ext P Q f g : (forall ty, P ty <-> Q ty) -> flags_after P f g -> flags_after Q f g.
Proof.
  intros H [A1 A2 A3 A4]. constructor; auto.
  - rewrite A1. now split; intros [H1 H2]; split; auto; intros ty Hty; apply H2, H.
  - rewrite A2. now split; intros [H1 H2]; split; auto; intros ty Hty; apply H2, H.
  - rewrite A3. split; (intros [H1|(ty & H1 & H2)]; [now left|right; exists ty; split; [now apply H|exact H2]]).
Qed.
Lemma fa_clear ty q : In ty [1; 2; 3; 129; 130; 131] ->
  flags_after (eq ty) (g_tx_modifiable_flags (p_global q)) (g_tx_modifiable_flags (p_global (clear_tx_modifiable ty q))).
Proof.
  intros Hin. constructor; [| | |intros b Hb]; rewrite clear_tx_bits.
  - cbn [N.eqb]. destruct (N.testbit (g_tx_modifiable_flags (p_global q)) 0); cbn;
      cbn in Hin; repeat destruct Hin as [<-|Hin]; try contradiction; cbn; (split; [intros E; try discriminate E; split; auto; intros ? <-; auto 10|
        intros [E H]; try discriminate E; try reflexivity; specialize (H _ eq_refl); cbn in H; lia]).
  - destruct (N.testbit (g_tx_modifiable_flags (p_global q)) 1); cbn;
      cbn in Hin; repeat destruct Hin as [<-|Hin]; try contradiction; cbn; (split; [intros E; try discriminate E; split; auto; intros ? <-; auto 10|
        intros [E H]; try discriminate E; try reflexivity; specialize (H _ eq_refl); cbn in H; lia]).
  - destruct (N.testbit (g_tx_modifiable_flags (p_global q)) 2); cbn;
      cbn in Hin; repeat destruct Hin as [<-|Hin]; try contradiction; cbn; (split; [intros E; try discriminate E; eauto 10|
        intros [E|(y & <- & H)]; try discriminate E; try reflexivity; cbn in H; lia]).
  - replace (b =? 0) with false by lia. replace (b =? 1) with false by lia. replace (b =? 2) with false by lia. reflexivity.
Qed.
Lemma outcome_ty n m ty sks : n < blen (tx_input t) -> outcome_of k t p0 n = Signed m ty sks ->
  exists i, nth_error (p_inputs p0) (N.to_nat n) = Some i /\ ecdsa_input p0 n i /\ to_sign p0 t n m ty /\ type_of_input i ty
            /\ keys_for k (in_bip32_derivations i) sks.
Proof.
  intros Hn. unfold outcome_of. destruct (psbt_signing_algorithm p0 n) as [[]| |] eqn:Ea; try discriminate.
  apply algorithm_ecdsa in Ea as (i & Hi). destruct (nth_error _ _) as [j|] eqn:Ej; [|discriminate].
  assert (j = i) by (destruct Hi as [[Hi _] _]; congruence). subst j.
  destruct (psbt_sighash_ecdsa p0 n t) as [[m' ty']| |] eqn:Es; try discriminate; [|destruct (is_empty _); discriminate].
  intros [= -> -> <-]. apply sighash_iff in Es; [|assumption]. exists i. split; [reflexivity|]. split; [assumption|]. split; [assumption|].
  split; [|now apply found_iff].
  destruct Es as (i' & u & Hi' & _ & Hty & _). destruct Hi as [Hi _]. now rewrite (input_at_fun _ _ _ _ Hi Hi').
Qed.
Lemma step_flags q n : n < blen (tx_input t) -> same_but_signed p0 q ->
  flags_after (fun ty => exists m sks, outcome_of k t p0 n = Signed m ty sks)
    (g_tx_modifiable_flags (p_global q)) (g_tx_modifiable_flags (p_global (step q n))).
Proof.
  intros Hn Hq. unfold step. destruct (outcome_of k t p0 n) as [|e| |m ty sks] eqn:E.
  1-3: apply (fa_ext (fun _ => False)); [intros ty; split; [tauto|]; intros (m & sks & H); discriminate|apply fa_refl].
  destruct (outcome_ty n m ty sks Hn E) as (i & Hi & _ & _ & [Hty _] & _).
  apply (fa_ext (eq ty)). { intros ty'. split; [intros <-; eauto|]. intros (m' & sks' & H). congruence. }
  unfold sign_at. pose proof (F2_nth _ _ _ (sb_inputs _ _ Hq) (N.to_nat n)) as Hj. rewrite Hi in Hj.
  destruct (nth_error (p_inputs q) (N.to_nat n)) as [j|]; [|contradiction].
  exact (fa_clear ty (set_p_inputs _ q) Hty).
Qed.
Lemma steps_flags idx : Forall (fun n => n < blen (tx_input t)) idx -> forall q, same_but_signed p0 q ->
  flags_after (fun ty => exists n m sks, In n idx /\ outcome_of k t p0 n = Signed m ty sks)
    (g_tx_modifiable_flags (p_global q)) (g_tx_modifiable_flags (p_global (fold_left step idx q))).
Proof.
  induction 1 as [|n idx Hn _ IH]; intros q Hq; cbn [fold_left].
  - apply (fa_ext (fun _ => False)); [|apply fa_refl]. intros ty. split; [tauto|]. intros (n & m & sks & [] & _).
  - eapply fa_ext; [|exact (fa_trans _ _ _ _ _ (step_flags q n Hn Hq) (IH _ (step_same q n Hq)))].
    intros ty. split.
    + intros [(m & sks & H)|(a & m & sks & H & H')]; [exists n|exists a]; exists m, sks; cbn; auto.
    + intros (a & m & sks & [->|H] & H'); eauto 6.
Qed.
End Loop.

(** ** [Signer::sign] *)

Lemma input_indices_in p n : In n (input_indices p) <-> n < blen (p_inputs p).
Proof.
  unfold input_indices, blen. rewrite in_map_iff. split.
  - intros (a & <- & H). apply in_seq in H. lia.
  - intros H. exists (N.to_nat n). split; [lia|]. apply in_seq. lia.
Qed.
Lemma input_indices_nodup p : NoDup (input_indices p).
Proof.
  unfold input_indices. apply FinFun.Injective_map_NoDup; [|apply seq_NoDup]. intros a b H. lia.
Qed.
Lemma unsigned_inputs p t : unsigned_tx p = Ok t -> blen (tx_input t) = blen (p_inputs p).
Proof.
  unfold unsigned_tx. intros H. apply bind_ok in H as (n & _ & H). inj H. cbn [tx_input]. unfold blen. now rewrite map_length.
Qed.
Definition signed_psbt (k : provider) (t : tx) (p : psbt) : psbt := fold_left (step k t p) (input_indices p) p.
Lemma signer_sign_eq k p t : unsigned_tx p = Ok t ->
  signer_sign k p =
  if existsb (panics k t p) (input_indices p) then Panic
  else match flat_map (error_of k t p) (input_indices p) with
       | [] => Ok (signed_psbt k t p, flat_map (used_of k t p) (input_indices p))
       | errs => Err (flat_map (used_of k t p) (input_indices p), errs)
       end.
Proof.
  intros H. unfold signer_sign, signer_unsigned_tx. rewrite H. cbn [expect_ok bind].
  rewrite (sign_inputs_eq k t p) by apply sbs_refl. destruct (existsb _ _); [reflexivity|]. cbn [app].
  destruct (flat_map (error_of k t p) (input_indices p)); reflexivity.
Qed.
Lemma signed_psbt_same k t p : same_but_signed p (signed_psbt k t p).
Proof. apply steps_same, sbs_refl. Qed.
Lemma signed_psbt_nth k t p n :
  nth_error (p_inputs (signed_psbt k t p)) (N.to_nat n) = option_map (sign_outcome k t p n) (nth_error (p_inputs p) (N.to_nat n)).
Proof.
  unfold signed_psbt. rewrite steps_nth by apply input_indices_nodup.
  destruct (existsb (N.eqb n) (input_indices p)) eqn:E; [reflexivity|].
  destruct (nth_error (p_inputs p) (N.to_nat n)) eqn:En; [|reflexivity]. exfalso.
  assert (H : In n (input_indices p)).
  { apply input_indices_in. assert (H' : nth_error (p_inputs p) (N.to_nat n) <> None) by congruence. apply nth_error_Some in H'. unfold blen. lia. }
  assert (Ht : existsb (N.eqb n) (input_indices p) = true) by (apply existsb_exists; exists n; split; [exact H|apply N.eqb_refl]).
  congruence.
Qed.

Lemma app_eq_unit_last {A} (l : list A) a l1 b l2 : l ++ [a] = l1 ++ b :: l2 ->
  (l1 = l /\ b = a /\ l2 = []) \/ exists l3, l2 = l3 ++ [a].
Proof.
  intros H. destruct l2 as [|c l2 _] using rev_ind; [apply app_inj_tail in H as [-> ->]; auto|].
  rewrite app_comm_cons, app_assoc in H. apply app_inj_tail in H as [_ ->]. eauto.
Qed.
(** The signatures after the loop over the keys. *)
Lemma add_sigs_get m ty sks : forall sigs pk s,
  m_get sk_pubkey pk (add_sigs m ty sigs sks) = Some s <->
  signature_by sks m ty pk s \/ ~ In pk (map public_of sks) /\ m_get sk_pubkey pk sigs = Some s.
Proof.
  unfold add_sigs. induction sks as [|sk sks IH] using rev_ind; intros sigs pk s.
  - cbn. split; [auto|]. intros [(l1 & a & l2 & H & _)|[_ H]]; [|exact H]. destruct l1; discriminate.
  - rewrite fold_left_app. cbn [fold_left]. unfold add_sig at 1.
    rewrite map_app, in_app_iff. cbn [map In].
    assert (Hpk : public_of sk = pk \/ public_of sk <> pk).
    { destruct (public_of sk) as [c1 k1], pk as [c2 k2]. destruct (bool_dec c1 c2) as [->|]; [|right; congruence].
      destruct (bytes_eqb k1 k2) eqn:E; [apply bytes_eqb_eq in E; subst; now left|].
      right. intros [= ->]. rewrite (proj2 (bytes_eqb_eq _ _) eq_refl) in E. discriminate. }
    destruct Hpk as [<-|Hpk].
    + rewrite (m_get_put_eq sk_pubkey sk_pubkey_inj). split.
      * intros [= <-]. left. exists sks, sk, []. cbn. auto.
      * intros [(l1 & a & l2 & H & Ha & Hl & ->)|[H _]]; [|tauto].
        destruct (app_eq_unit_last sks sk l1 a l2 H) as [(-> & -> & ->)|(l3 & ->)]; [reflexivity|].
        exfalso. apply Hl. rewrite map_app, in_app_iff. cbn. auto.
    + rewrite (m_get_put_neq sk_pubkey sk_pubkey_inj) by congruence. rewrite IH. split.
      * intros [(l1 & a & l2 & -> & Ha & Hl & ->)|[H1 H2]]; [left|right; tauto].
        exists l1, a, (l2 ++ [sk]). rewrite <- app_assoc. repeat split; auto.
        rewrite map_app, in_app_iff. cbn. tauto.
      * intros [(l1 & a & l2 & H & Ha & Hl & ->)|[H1 H2]]; [left|right; tauto].
        destruct (app_eq_unit_last sks sk l1 a l2 H) as [(-> & -> & ->)|(l3 & ->)]; [congruence|].
        rewrite app_comm_cons, app_assoc in H. apply app_inj_tail in H as [-> _].
        exists l1, a, l3. repeat split; auto. intros H. apply Hl. rewrite map_app, in_app_iff. auto.
Qed.

(** ** Signing twice, and signing with two sets of keys *)

Lemma add_sigs_sorted m ty sks : forall sigs, m_sorted sk_pubkey sigs -> m_sorted sk_pubkey (add_sigs m ty sigs sks).
Proof.
  induction sks as [|sk sks IH]; intros sigs H; cbn [add_sigs fold_left]; [assumption|].
  apply IH. exact (m_put_sorted sk_pubkey sk_pubkey_inj _ _ _ H).
Qed.
Lemma signature_fun sks m ty pk s s' : signature_by sks m ty pk s -> signature_by sks m ty pk s' -> s = s'.
Proof.
  intros H H'. pose proof (proj2 (add_sigs_get m ty sks [] pk s) (or_introl H)) as E.
  pose proof (proj2 (add_sigs_get m ty sks [] pk s') (or_introl H')) as E'. congruence.
Qed.
Lemma signature_in sks m ty pk s : signature_by sks m ty pk s -> In pk (map public_of sks).
Proof. intros (l1 & sk & l2 & -> & <- & _). rewrite map_app, in_app_iff. cbn. auto. Qed.
Lemma signature_ex sks m ty pk : In pk (map public_of sks) -> exists s, signature_by sks m ty pk s.
Proof.
  induction sks as [|sk sks IH] using rev_ind; [contradiction|].
  rewrite map_app, in_app_iff. cbn [map In].
  destruct (m_get sk_pubkey pk (add_sigs m ty [] (sks ++ [sk]))) as [s|] eqn:E.
  - intros _. apply add_sigs_get in E as [E|[_ E]]; [eauto|discriminate].
  - intros H. exfalso. unfold add_sigs in E. rewrite fold_left_app in E. cbn [fold_left] in E. unfold add_sig at 1 in E.
    assert (Hne : public_of sk <> pk).
    { intros <-. rewrite (m_get_put_eq sk_pubkey sk_pubkey_inj) in E. discriminate. }
    rewrite (m_get_put_neq sk_pubkey sk_pubkey_inj) in E by congruence.
    destruct H as [H|[H|[]]]; [|contradiction]. destruct (IH H) as [s Hs].
    pose proof (proj2 (add_sigs_get m ty sks [] pk s) (or_introl Hs)) as E'. unfold add_sigs in E'. congruence.
Qed.
Lemma add_sigs_none m ty sks sigs pk :
  m_get sk_pubkey pk (add_sigs m ty sigs sks) = None <-> ~ In pk (map public_of sks) /\ m_get sk_pubkey pk sigs = None.
Proof.
  split.
  - intros H. split.
    + intros Hi. destruct (signature_ex sks m ty pk Hi) as [s Hs].
      pose proof (proj2 (add_sigs_get m ty sks sigs pk s) (or_introl Hs)). congruence.
    + destruct (m_get sk_pubkey pk sigs) as [s|] eqn:E; [|reflexivity].
      destruct (m_get sk_pubkey pk (add_sigs m ty sigs sks)) eqn:E'; [discriminate|].
      assert (Hn : ~ In pk (map public_of sks)).
      { intros Hi. destruct (signature_ex sks m ty pk Hi) as [s' Hs].
        pose proof (proj2 (add_sigs_get m ty sks sigs pk s') (or_introl Hs)). congruence. }
      pose proof (proj2 (add_sigs_get m ty sks sigs pk s) (or_intror (conj Hn E))). congruence.
  - intros [H1 H2]. destruct (m_get _ _ (add_sigs _ _ _ _)) as [s|] eqn:E; [|reflexivity].
    apply add_sigs_get in E as [E|[_ E]]; [|congruence]. now apply signature_in in E.
Qed.
Lemma add_sigs_twice m ty sks sigs : m_sorted sk_pubkey sigs -> add_sigs m ty (add_sigs m ty sigs sks) sks = add_sigs m ty sigs sks.
Proof.
  intros H. apply (m_ext sk_pubkey sk_pubkey_inj); auto using add_sigs_sorted. intros pk.
  destruct (m_get sk_pubkey pk (add_sigs m ty sigs sks)) as [s|] eqn:E.
  - apply add_sigs_get. destruct (proj1 (add_sigs_get m ty sks sigs pk s) E) as [Hs|[Hn Hs]]; [now left|]. right. auto.
  - apply add_sigs_none. split; [|exact E]. now apply add_sigs_none in E.
Qed.

Lemma nth_ext_N {A} (l l' : list A) : (forall n, nth_error l (N.to_nat n) = nth_error l' (N.to_nat n)) -> l = l'.
Proof.
  intros H. assert (H' : forall n, nth_error l n = nth_error l' n) by (intros n; rewrite <- (Nat2N.id n); apply H).
  clear H. revert l' H'. induction l as [|a l IH]; intros [|b l'] H; auto.
  - discriminate (H 0%nat).
  - discriminate (H 0%nat).
  - pose proof (H 0%nat) as H0. cbn in H0. injection H0 as ->. f_equal. apply IH. intros n. exact (H (Datatypes.S n)).
Qed.
Lemma flags_after_fun P f g h : flags_after P f g -> flags_after P f h -> g = h.
Proof.
  intros [A1 A2 A3 A4] [B1 B2 B3 B4]. apply N.bits_inj. intros b.
  assert (E : forall b1 b2 : bool, (b1 = true <-> b2 = true) -> b1 = b2).
  { intros [] []; intuition. }
  destruct (N.ltb_spec 2 b) as [Hb|Hb]; [now rewrite A4, B4|].
  assert (Hc : b = 0 \/ b = 1 \/ b = 2) by lia. apply E. destruct Hc as [->|[->| ->]].
  - now rewrite A1, B1.
  - now rewrite A2, B2.
  - now rewrite A3, B3.
Qed.
Lemma fa_idem P f g : flags_after P f g -> flags_after P g g.
Proof. intros [A1 A2 A3 A4]. constructor; [tauto|tauto|tauto|auto]. Qed.

(** The signed inputs of a PSBT and their types. *)
Definition signed_types (k : provider) (t : tx) (p : psbt) (ty : N) : Prop :=
  exists n m sks, In n (input_indices p) /\ outcome_of k t p n = Signed m ty sks.
Lemma signed_psbt_flags k t p : unsigned_tx p = Ok t ->
  flags_after (signed_types k t p) (g_tx_modifiable_flags (p_global p)) (g_tx_modifiable_flags (p_global (signed_psbt k t p))).
Proof.
  intros H. apply (steps_flags k t p); [|apply sbs_refl]. apply Forall_forall. intros n Hn. apply input_indices_in in Hn.
  now rewrite (unsigned_inputs _ _ H).
Qed.
Lemma indices_same p q : same_but_signed p q -> input_indices q = input_indices p.
Proof. intros H. unfold input_indices. now rewrite (F2_len _ _ _ (sb_inputs _ _ H)). Qed.
Lemma signed_psbt_ext p q r : same_but_signed p q -> same_but_signed p r ->
  (forall n, nth_error (p_inputs q) (N.to_nat n) = nth_error (p_inputs r) (N.to_nat n)) ->
  g_tx_modifiable_flags (p_global q) = g_tx_modifiable_flags (p_global r) -> q = r.
Proof.
  intros H1 H2 Hn Hf. apply nth_ext_N in Hn. pose proof (sb_global _ _ H1) as G1. pose proof (sb_global _ _ H2) as G2.
  pose proof (sb_outputs _ _ H1). pose proof (sb_outputs _ _ H2). destruct q as [gq iq oq], r as [gr ir or].
  cbn [p_global p_inputs p_outputs] in *. subst. rewrite G1, G2, Hf. reflexivity.
Qed.

Lemma flat_map_ext' {A B} (f g : A -> list B) l : (forall a, f a = g a) -> flat_map f l = flat_map g l.
Proof. intros H. induction l; cbn; congruence. Qed.
Lemma existsb_ext' {A} (f g : A -> bool) l : (forall a, f a = g a) -> existsb f l = existsb g l.
Proof. intros H. induction l; cbn; congruence. Qed.

(** Signing a PSBT that has been signed before, possibly with other keys. *)
Lemma sign_again k p q t : unsigned_tx p = Ok t -> same_but_signed p q ->
  signer_sign k q =
  if existsb (panics k t p) (input_indices p) then Panic
  else match flat_map (error_of k t p) (input_indices p) with
       | [] => Ok (signed_psbt k t q, flat_map (used_of k t p) (input_indices p))
       | errs => Err (flat_map (used_of k t p) (input_indices p), errs)
       end.
Proof.
  intros Ht H. assert (Hq : unsigned_tx q = Ok t) by now rewrite (unsigned_tx_same p q H).
  rewrite (signer_sign_eq k q t Hq), (indices_same p q H).
  rewrite (existsb_ext' (panics k t q) (panics k t p)) by (intros n; unfold panics; now rewrite (outcome_same k t p q n H)).
  rewrite (flat_map_ext' (error_of k t q) (error_of k t p)) by (intros n; unfold error_of; now rewrite (outcome_same k t p q n H)).
  rewrite (flat_map_ext' (used_of k t q) (used_of k t p)) by (intros n; unfold used_of; now rewrite (outcome_same k t p q n H)).
  reflexivity.
Qed.
Lemma sign_again_nth k t p q n : same_but_signed p q ->
  nth_error (p_inputs (signed_psbt k t q)) (N.to_nat n) = option_map (sign_outcome k t p n) (nth_error (p_inputs q) (N.to_nat n)).
Proof.
  intros H. rewrite signed_psbt_nth. unfold sign_outcome. now rewrite (outcome_same k t p q n H).
Qed.
Lemma sign_again_flags k t p q : unsigned_tx p = Ok t -> same_but_signed p q ->
  flags_after (signed_types k t p) (g_tx_modifiable_flags (p_global q)) (g_tx_modifiable_flags (p_global (signed_psbt k t q))).
Proof.
  intros Ht H. assert (Hq : unsigned_tx q = Ok t) by now rewrite (unsigned_tx_same p q H).
  eapply fa_ext; [|exact (signed_psbt_flags k t q Hq)]. intros ty. unfold signed_types. rewrite (indices_same p q H).
  split; intros (n & m & sks & H1 & H2); exists n, m, sks; (split; [exact H1|]);
    [now rewrite <- (outcome_same k t p q n H)|now rewrite (outcome_same k t p q n H)].
Qed.
Lemma signed_twice k t p : unsigned_tx p = Ok t -> Forall (fun i => m_sorted sk_pubkey (in_partial_sigs i)) (p_inputs p) ->
  signed_psbt k t (signed_psbt k t p) = signed_psbt k t p.
Proof.
  intros Ht Hs. pose proof (signed_psbt_same k t p) as H1.
  pose proof (signed_psbt_same k t (signed_psbt k t p)) as H2.
  apply (signed_psbt_ext p); [exact (sbs_trans _ _ _ H1 H2)|exact H1| |].
  - intros n. rewrite (sign_again_nth k t p _ n H1), signed_psbt_nth.
    destruct (nth_error (p_inputs p) (N.to_nat n)) as [i|] eqn:E; [|reflexivity]. cbn [option_map]. f_equal.
    unfold sign_outcome. destruct (outcome_of k t p n) as [|e| |m ty sks]; auto. unfold sign_input. cbn [in_partial_sigs set_in_partial_sigs].
    rewrite add_sigs_twice; [reflexivity|]. eapply Forall_forall in Hs; [exact Hs|]. exact (nth_error_In _ _ E).
  - eapply flags_after_fun; [exact (sign_again_flags k t p _ Ht H1)|]. eapply fa_idem. apply (signed_psbt_flags k t p Ht).
Qed.

End Types.

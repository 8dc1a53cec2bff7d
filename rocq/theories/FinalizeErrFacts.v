(** Facts about the errors of the finalizers. *)
From Verif Require Import Base OMap Consensus ConsensusFacts Ext Raw RawFacts TapTree Serialize SerializeFacts MapCodec
  SpecCodec SpecPsbt V2Global V2Input V2Output V2Psbt V2Roles SpecRoles V2RolesFacts Script V2Sign SpecSign V2SignFacts V2Finalize SpecFinalize V2FinalizeFacts V2SpendFacts
  V0Error V0Input V0Output V0Psbt SpecPsbt0 SpecExtract0 V0ExtractFacts V0Sign SpecSign0 V0SignFacts V0Finalize SpecFinalize0 V0FinalizeFacts V0SpendFacts
  SpecFinalizeErr.
Local Open Scope N_scope.

Section Kinds.
Context `{X : Ext}.

Ltac lens := match goal with
  | |- ?f ?s = false =>
      first [ apply (not_by_length f s 25%nat (p2pkh_length s)) | apply (not_by_length f s 22%nat (p2wpkh_length s))
            | apply (not_by_length f s 34%nat (p2wsh_length s)) | apply (not_by_length f s 34%nat (p2tr_length s))
            | apply (not_by_length f s 23%nat (p2sh_length s))
            | let E := fresh in destruct (f s) eqn:E; [apply p2pk_length in E|reflexivity] ] end.

Lemma kind_pk s k : p2pk_key s k ->
  is_p2tr s = false /\ is_p2pk s = true /\ removelast (tl s) = k.
Proof.
  intros H. assert (L : length s = 35%nat \/ length s = 67%nat).
  { destruct H as [[H|H] ->]; cbn [length]; rewrite app_length, H; cbn; auto. }
  split; [lens; lia|]. split; [apply is_p2pk_iff; now exists k|]. destruct H as [_ ->]. cbn [tl]. apply removelast_last.
Qed.
Lemma kind_pkh s h : p2pkh_hash s h ->
  is_p2tr s = false /\ is_p2pk s = false /\ is_p2pkh s = true.
Proof.
  intros H. assert (T : is_p2pkh s = true) by (apply is_p2pkh_iff; now exists h). pose proof (p2pkh_length _ T) as L.
  split; [lens; lia|]. split; [lens; lia|assumption].
Qed.
Lemma kind_wpkh s h : p2wpkh_hash s h ->
  is_p2tr s = false /\ is_p2pk s = false /\ is_p2pkh s = false /\ is_p2wpkh s = true.
Proof.
  intros H. assert (T : is_p2wpkh s = true) by (apply is_p2wpkh_iff; now exists h). pose proof (p2wpkh_length _ T) as L.
  split; [lens; lia|]. split; [lens; lia|]. split; [lens; lia|assumption].
Qed.
Lemma kind_wsh s h : p2wsh_hash s h ->
  is_p2tr s = false /\ is_p2pk s = false /\ is_p2pkh s = false /\ is_p2wpkh s = false /\ is_p2wsh s = true.
Proof.
  intros H. assert (T : is_p2wsh s = true) by (apply is_p2wsh_iff; now exists h). pose proof (p2wsh_length _ T) as L.
  split; [now apply p2wsh_not_tr|]. split; [lens; lia|]. split; [lens; lia|]. split; [lens; lia|assumption].
Qed.
Lemma kind_sh s h : p2sh_hash s h ->
  is_p2tr s = false /\ is_p2pk s = false /\ is_p2pkh s = false /\ is_p2wpkh s = false /\ is_p2wsh s = false /\ is_p2sh s = true.
Proof.
  intros H. assert (T : is_p2sh s = true) by (apply is_p2sh_iff; now exists h). pose proof (p2sh_length _ T) as L.
  split; [lens; lia|]. split; [lens; lia|]. split; [lens; lia|]. split; [lens; lia|]. split; [lens; lia|assumption].
Qed.
Lemma kind_bare s : bare_output s <->
  is_p2tr s = false /\ is_p2pk s = false /\ is_p2pkh s = false /\ is_p2wpkh s = false /\ is_p2wsh s = false /\ is_p2sh s = false.
Proof.
  unfold bare_output. rewrite is_p2tr_false, is_p2wpkh_false, is_p2wsh_false, is_p2sh_false.
  rewrite (bool_false_iff _ _ (is_p2pk_iff s)), (bool_false_iff _ _ (is_p2pkh_iff s)). unfold p2sh, p2pk_key, p2pkh_hash, p2sh_hash.
  firstorder.
Qed.
End Kinds.

Section Gen.
Context `{X : Ext} {L : ExtLaws X}.
Lemma pk_wf x k pk : p2pk_key x k -> de_pubkey k = Ok pk -> wf_pubkey pk /\ ser_pubkey pk = k.
Proof.
  intros [H _] D. split; [|symmetry; now apply pubkey_canonical in D].
  apply (co_wf _ _ _ _ (pubkey_codec 65 ltac:(lia)) k); [|assumption]. unfold blen. lia.
Qed.
Variable spk : bytes.
Variables rs ws : option bytes.
Variable sigs : list (pubkey * esig).
Variable runs : msctx -> bytes -> bool.
Variable tap : bool.

Definition gen_wpkh (script : bytes) : option problem :=
  match find (fun e : pubkey * esig => pub_compressed (fst e) && bytes_eqb script (p2wpkh_of (fst e))) sigs with
  | Some _ => None
  | None => Some NoSigningKey
  end.
Definition gen_run (c : msctx) (b : bytes) : option problem := if runs c b then None else Some NotSatisfied.
Definition gen_wsh (script : bytes) : option problem :=
  match ws with
  | Some w => if negb (bytes_eqb (to_p2wsh w) script) then Some (WrongWitnessScript w script) else gen_run CSegwitv0 w
  | None => Some NoWitnessScript
  end.
Definition gen : option problem :=
  if is_p2tr spk then if tap then None else Some NoTaprootPath
  else if is_p2pk spk then
    match de_pubkey (removelast (tl spk)) with
    | Ok pk => if is_some (m_get sk_pubkey pk sigs) then None else Some NotSatisfied
    | _ => Some BadKey
    end
  else if is_p2pkh spk then
    match find (fun e : pubkey * esig => bytes_eqb spk (p2pkh_of (fst e))) sigs with
    | Some _ => None
    | None => Some NoSigningKey
    end
  else if is_p2wpkh spk then gen_wpkh spk
  else if is_p2wsh spk then if is_some rs then Some ExtraRedeemScript else gen_wsh spk
  else if is_p2sh spk then
    match rs with
    | None => Some NoRedeemScript
    | Some r =>
        if negb (bytes_eqb (to_p2sh r) spk) then Some (WrongRedeemScript r spk)
        else if is_p2wsh r then gen_wsh r
        else if is_p2wpkh r then gen_wpkh r
        else if is_some ws then Some ExtraWitnessScript
        else gen_run CLegacy r
    end
  else if is_some ws then Some ExtraWitnessScript
  else if is_some rs then Some ExtraRedeemScript
  else gen_run CBare spk.

Variable s : spending.
Hypothesis Hout : sp_output s = spk.
Hypothesis Hrs : sp_redeem s = rs.
Hypothesis Hws : sp_script s = ws.
Hypothesis Hsigs : forall k, sp_signed s k <-> exists sg, In (k, sg) sigs.
Hypothesis Hsorted : m_sorted sk_pubkey sigs.
Hypothesis Hruns : forall c b, runs c b = true <-> sp_runs s c b.
Hypothesis Htap : tap = true <-> sp_taproot s.

Lemma bytes_eqb_dec a b : bytes_eqb a b = true /\ a = b \/ bytes_eqb a b = false /\ a <> b.
Proof. destruct (bytes_eqb a b) eqn:E; [left; now apply bytes_eqb_eq in E|right; split; [reflexivity|]; intros ->; now rewrite bytes_eqb_refl in E]. Qed.

Lemma gen_run_iff c b q : gen_run c b = Some q <-> q = NotSatisfied /\ ~ sp_runs s c b.
Proof.
  unfold gen_run. rewrite <- Hruns. destruct (runs c b); split; try discriminate; try (intros [_ H]; now destruct H).
  - intros H; injection H as <-. split; [reflexivity|discriminate].
  - now intros [-> _].
Qed.
Lemma gen_wpkh_iff script h q : p2wpkh_hash script h -> (gen_wpkh script = Some q <-> q = NoSigningKey /\ unsigned_hash s h).
Proof.
  intros [[E _] _]. unfold gen_wpkh, unsigned_hash.
  destruct (find _ _) as [e|] eqn:F.
  - apply find_some in F as [F1 F2]. apply andb_prop in F2 as [F2 F3]. apply bytes_eqb_eq in F3. split; [discriminate|].
    intros [_ H]. exfalso. destruct e as [k sg]. apply (H k); [apply Hsigs; now exists sg|assumption|].
    rewrite p2wpkh_of_program in F3. rewrite E in F3. symmetry. now apply program_script_inj in F3.
  - split; [|now intros [-> _]]. intros H; injection H as <-. split; [reflexivity|]. intros k Hk Hc Hh.
    apply Hsigs in Hk as [sg Hk]. pose proof (find_none _ _ F _ Hk) as N. cbn [fst] in N. rewrite Hc in N. cbn [andb] in N.
    rewrite p2wpkh_of_program, Hh, E, bytes_eqb_refl in N. discriminate.
Qed.
Lemma gen_wsh_iff script h q : p2wsh_hash script h -> (gen_wsh script = Some q <-> script_problem s script h q).
Proof.
  intros [[E _] _]. unfold gen_wsh. split.
  - destruct ws as [w|]; [|intros H; injection H as <-; now constructor].
    destruct (bytes_eqb_dec (to_p2wsh w) script) as [[-> B]|[-> B]]; cbn [negb].
    + intros H. apply gen_run_iff in H as [-> H]. apply SPRuns with w; [assumption| |assumption].
      rewrite to_p2wsh_program, E in B. now apply program_script_inj in B.
    + intros H; injection H as <-. apply SPWrong; [assumption|]. intros Hh. apply B. rewrite to_p2wsh_program, Hh. now symmetry.
  - intros H. destruct H as [H|w H N|w H N R]; rewrite Hws in H; rewrite H; [reflexivity| |];
      destruct (bytes_eqb_dec (to_p2wsh w) script) as [[-> B]|[-> B]]; cbn [negb]; try reflexivity.
    + exfalso. apply N. rewrite to_p2wsh_program, E in B. now apply program_script_inj in B.
    + apply gen_run_iff. auto.
    + exfalso. apply B. rewrite to_p2wsh_program, N. now symmetry.
Qed.

Ltac flags K := repeat match type of K with _ /\ _ => let K1 := fresh in destruct K as [K1 K]; try rewrite K1 end; try rewrite K;
  try match goal with E : rs = _ |- _ => rewrite E; cbn [is_some] end; try match goal with E : ws = _ |- _ => rewrite E; cbn [is_some] end.
Lemma cannot_gen q : cannot s q -> gen = Some q.
Proof.
  intros H. unfold gen. destruct H; rewrite ?Hout, ?Hrs, ?Hws in *.
  - pose proof (kind_pk _ _ H) as K. flags K. destruct (de_pubkey k) as [pk| |] eqn:D; [|reflexivity..]. exfalso.
    destruct (pk_wf _ _ _ H D) as [W E]. exact (H0 pk W E).
  - pose proof (kind_pk _ _ H0) as K. flags K. rewrite (co_rt _ _ _ _ (pubkey_codec 65 ltac:(lia))) by assumption.
    destruct (m_get sk_pubkey pk sigs) as [sg|] eqn:G; [|reflexivity]. exfalso. apply H1, Hsigs. exists sg. now apply (m_get_in sk_pubkey sk_pubkey_inj) in G.
  - pose proof (kind_pkh _ _ H) as K. flags K. destruct (find _ _) as [[k sg]|] eqn:F; [|reflexivity]. exfalso.
    apply find_some in F as [F1 F2]. apply bytes_eqb_eq in F2. cbn [fst] in F2. apply (H0 k); [apply Hsigs; now exists sg|].
    destruct H as [_ H]. rewrite H, p2pkh_of_script in F2. symmetry. now apply p2pkh_script_inj in F2.
  - pose proof (kind_wpkh _ _ H) as K. flags K. apply (gen_wpkh_iff _ _ _ H). auto.
  - pose proof (kind_wsh _ _ H) as K. flags K. destruct rs; [reflexivity|congruence].
  - pose proof (kind_wsh _ _ H) as K. flags K. apply (gen_wsh_iff _ _ _ H). assumption.
  - pose proof (kind_sh _ _ H) as K. flags K. reflexivity.
  - pose proof (kind_sh _ _ H) as K. flags K. destruct (bytes_eqb_dec (to_p2sh r) spk) as [[-> B]|[-> B]]; cbn [negb]; [|reflexivity].
    exfalso. apply H1. destruct H as [_ H]. rewrite to_p2sh_script, H in B. now apply p2sh_script_inj in B.
  - pose proof (kind_sh _ _ H) as K. flags K.
    replace (bytes_eqb (to_p2sh r) spk) with true by (destruct H as [_ H]; rewrite to_p2sh_script, H1, H; symmetry; apply bytes_eqb_refl). cbn [negb].
    replace (is_p2wsh r) with true by (symmetry; apply is_p2wsh_iff; now exists g). now apply (gen_wsh_iff r g).
  - pose proof (kind_sh _ _ H) as K. flags K.
    replace (bytes_eqb (to_p2sh r) spk) with true by (destruct H as [_ H]; rewrite to_p2sh_script, H1, H; symmetry; apply bytes_eqb_refl). cbn [negb].
    replace (is_p2wsh r) with false by (symmetry; apply is_p2wsh_false; intros [g' Hg]; exact (wpkh_wsh _ _ _ H2 Hg)).
    replace (is_p2wpkh r) with true by (symmetry; apply is_p2wpkh_iff; now exists g). apply (gen_wpkh_iff r g); auto.
  - pose proof (kind_sh _ _ H) as K. flags K.
    replace (bytes_eqb (to_p2sh r) spk) with true by (destruct H as [_ H]; rewrite to_p2sh_script, H1, H; symmetry; apply bytes_eqb_refl). cbn [negb].
    replace (is_p2wsh r) with false by (symmetry; apply is_p2wsh_false; intros [g' Hg]; exact (H2 _ Hg)).
    replace (is_p2wpkh r) with false by (symmetry; apply is_p2wpkh_false; intros [g' Hg]; exact (H3 _ Hg)). destruct ws; [reflexivity|congruence].
  - pose proof (kind_sh _ _ H) as K. flags K.
    replace (bytes_eqb (to_p2sh r) spk) with true by (destruct H as [_ H]; rewrite to_p2sh_script, H1, H; symmetry; apply bytes_eqb_refl). cbn [negb].
    replace (is_p2wsh r) with false by (symmetry; apply is_p2wsh_false; intros [g' Hg]; exact (H2 _ Hg)).
    replace (is_p2wpkh r) with false by (symmetry; apply is_p2wpkh_false; intros [g' Hg]; exact (H3 _ Hg)). apply gen_run_iff. auto.
  - replace (is_p2tr spk) with true by (symmetry; apply is_p2tr_iff; now exists k). destruct tap; [exfalso; apply H0, Htap; reflexivity|reflexivity].
  - apply kind_bare in H. flags H. destruct ws; [reflexivity|congruence].
  - apply kind_bare in H. flags H. destruct rs; [reflexivity|congruence].
  - apply kind_bare in H. flags H. apply gen_run_iff. auto.
Qed.

Lemma gen_cannot q : gen = Some q -> cannot s q.
Proof.
  intros H. unfold gen in H.
  destruct (is_p2tr spk) eqn:Etr.
  { destruct (proj1 (is_p2tr_iff _) Etr) as [k Hk]. rewrite <- Hout in Hk. destruct tap; [discriminate|]. injection H as <-.
    apply (CNTr s k Hk). intros T. apply Htap in T. discriminate. }
  destruct (is_p2pk spk) eqn:Epk.
  { destruct (proj1 (is_p2pk_iff _) Epk) as [k Hk]. fold (p2pk_key spk k) in Hk. destruct (kind_pk _ _ Hk) as (_ & _ & Ek). rewrite Ek in H.
    rewrite <- Hout in Hk. destruct (de_pubkey k) as [pk|e|] eqn:D.
    - destruct (pk_wf _ _ _ Hk D) as [W <-].
      destruct (m_get sk_pubkey pk sigs) as [sg|] eqn:G; cbn [is_some] in H; [discriminate|]. injection H as <-. apply (CNPk s pk W Hk).
      intros T. apply Hsigs in T as [sg T]. apply (m_in_get sk_pubkey _ _ _ Hsorted) in T. congruence.
    - injection H as <-. apply (CNKey s k Hk). intros pk W Ep. rewrite <- Ep, (co_rt _ _ _ _ (pubkey_codec 65 ltac:(lia)) pk W) in D. discriminate.
    - injection H as <-. apply (CNKey s k Hk). intros pk W Ep. rewrite <- Ep, (co_rt _ _ _ _ (pubkey_codec 65 ltac:(lia)) pk W) in D. discriminate. }
  destruct (is_p2pkh spk) eqn:Epkh.
  { destruct (proj1 (is_p2pkh_iff _) Epkh) as [h Hh]. fold (p2pkh_hash spk h) in Hh. destruct (find _ _) eqn:F; [discriminate|]. injection H as <-.
    apply (CNPkh s h); [now rewrite Hout|]. intros k Hk E. apply Hsigs in Hk as [sg Hk]. pose proof (find_none _ _ F _ Hk) as N. cbn [fst] in N.
    destruct Hh as [_ Hh]. rewrite p2pkh_of_script, E, Hh, bytes_eqb_refl in N. discriminate. }
  destruct (is_p2wpkh spk) eqn:Ewpkh.
  { destruct (proj1 (is_p2wpkh_iff _) Ewpkh) as [h Hh]. destruct (proj1 (gen_wpkh_iff _ _ _ Hh) H) as [-> U]. rewrite <- Hout in Hh. exact (CNWpkh s h Hh U). }
  destruct (is_p2wsh spk) eqn:Ewsh.
  { destruct (proj1 (is_p2wsh_iff _) Ewsh) as [h Hh]. destruct rs as [r|] eqn:Er; cbn [is_some] in H.
    - injection H as <-. rewrite <- Hout in Hh. apply (CNWshRedeem s h Hh). congruence.
    - apply (proj1 (gen_wsh_iff _ _ _ Hh)) in H. rewrite <- Hout in Hh, H. exact (CNWsh s h q Hh Hrs H). }
  destruct (is_p2sh spk) eqn:Esh.
  { destruct (proj1 (is_p2sh_iff _) Esh) as [h Hh]. fold (p2sh_hash spk h) in Hh. pose proof Hh as Hh'. rewrite <- Hout in Hh'. destruct rs as [r|] eqn:Er.
    - destruct (bytes_eqb_dec (to_p2sh r) spk) as [[Q B]|[Q B]]; rewrite Q in H; cbn [negb] in H.
      + assert (E : hash160 r = h) by (destruct Hh as [_ Hh]; rewrite to_p2sh_script, Hh in B; now apply p2sh_script_inj in B).
        destruct (is_p2wsh r) eqn:Rw.
        { destruct (proj1 (is_p2wsh_iff _) Rw) as [g Hg]. apply (proj1 (gen_wsh_iff _ _ _ Hg)) in H. exact (CNShWsh s h r g q Hh' Hrs E Hg H). }
        assert (N1 : forall g, ~ p2wsh_hash r g) by (apply is_p2wsh_false in Rw; firstorder).
        destruct (is_p2wpkh r) eqn:Rk.
        { destruct (proj1 (is_p2wpkh_iff _) Rk) as [g Hg]. destruct (proj1 (gen_wpkh_iff _ _ _ Hg) H) as [-> U]. exact (CNShWpkh s h r g Hh' Hrs E Hg U). }
        assert (N2 : forall g, ~ p2wpkh_hash r g) by (apply is_p2wpkh_false in Rk; firstorder).
        destruct ws as [w|] eqn:Ew; cbn [is_some] in H.
        * injection H as <-. apply (CNShScript s h r Hh' Hrs E N1 N2). congruence.
        * apply gen_run_iff in H as [-> H]. exact (CNSh s h r Hh' Hrs E N1 N2 Hws H).
      + injection H as <-. rewrite <- Hout. apply (CNShWrong s h r Hh' Hrs). intros E. apply B. destruct Hh as [_ ->]. now rewrite to_p2sh_script, E.
    - injection H as <-. exact (CNShNone s h Hh' Hrs). }
  assert (B : bare_output (sp_output s)) by (rewrite Hout; apply kind_bare; repeat split; assumption).
  destruct ws as [w|] eqn:Ew; cbn [is_some] in H; [injection H as <-; apply (CNBareScript s B); congruence|].
  destruct rs as [r|] eqn:Er; cbn [is_some] in H; [injection H as <-; apply (CNBareRedeem s B Hws); congruence|].
  apply gen_run_iff in H as [-> H]. rewrite <- Hout in H. exact (CNBare s B Hws Hrs H).
Qed.
Lemma gen_iff q : cannot s q <-> gen = Some q.
Proof. split; [apply cannot_gen|apply gen_cannot]. Qed.

End Gen.

Section Runs.
Context `{X : Ext} `{M : MsExt}.

Definition runs_b (names : list (bytes * pubkey)) (sat : msctx -> ms -> satisfier -> option (list bytes)) (z : satisfier)
    (c : msctx) (b : bytes) : bool :=
  match ms_parse c b with
  | Some m =>
      let m' := match c with CLegacy => m | _ => ms_substitute names m end in
      ms_top_level c m' && is_some (sat c m' z)
  | None => false
  end.
Lemma runs_b_iff names sat z c b : runs_b names sat z c b = true <-> runs_with names sat z c b.
Proof.
  unfold runs_b, runs_with. destruct (ms_parse c b) as [m|].
  - cbv zeta. set (m' := match c with CLegacy => m | _ => ms_substitute names m end). split.
    + intros H. apply andb_prop in H as [H1 H2]. destruct (sat c m' z) as [w|] eqn:E; [|discriminate]. exists m, w. auto.
    + intros (m0 & w & E & H1 & H2). injection E as <-. fold m' in H1, H2. rewrite H1, H2. reflexivity.
  - split; [discriminate|]. intros (m & w & E & _). discriminate.
Qed.

(** ** v2 *)
Lemma sigs_get (sigs : list (pubkey * esig)) k sg : m_sorted sk_pubkey sigs -> In (k, sg) sigs -> m_get sk_pubkey k sigs = Some sg.
Proof. intros Hs. apply (m_in_get sk_pubkey _ _ _ Hs). Qed.

Definition tap_b (i : input) : bool :=
  is_some (in_tap_key_sig i) || is_some (tap_loop (tap_key_map i) (input_satisfier i) (in_tap_scripts i) None).
Lemma tap_b_iff i : tap_b i = true <-> in_tap_key_sig i <> None \/ exists w, leaf_spend i w.
Proof.
  unfold tap_b. destruct (in_tap_key_sig i) as [g|]; cbn [is_some orb].
  - split; [left; discriminate|reflexivity].
  - pose proof (tap_loop_spec (tap_key_map i) (input_satisfier i) (in_tap_scripts i) None) as T.
    destruct (tap_loop _ _ _ _) as [w|]; cbn [is_some].
    + split; [|reflexivity]. intros _. right. exists w. apply leaf_spend_iff. destruct T as [[T|T] _]; [discriminate|exact T].
    + split; [discriminate|]. intros [H|[w H]]; [congruence|]. apply leaf_spend_iff in H as (leaf & H1 & H2). destruct T as [_ T].
      now rewrite (T _ H1) in H2.
Qed.

Definition gen2 (inputs : list input) (i : input) (u : txout) : option problem :=
  gen (to_script u) (in_redeem_script i) (in_witness_script i) (in_partial_sigs i)
    (runs_b (known_keys inputs) ms_satisfy (input_satisfier i)) (tap_b i).
Lemma gen2_iff {L : ExtLaws X} inputs i u q : m_sorted sk_pubkey (in_partial_sigs i) ->
  (cannot (spending_of inputs i u) q <-> gen2 inputs i u = Some q).
Proof.
  intros Hs. apply gen_iff; cbn [spending_of sp_output sp_redeem sp_script sp_signed sp_runs sp_taproot]; try reflexivity; try assumption.
  - intros c b. apply runs_b_iff.
  - apply tap_b_iff.
Qed.

Ltac wrap := first [reflexivity | eexists; split; reflexivity].
Lemma final_gen inputs i u : funds i u -> m_sorted sk_pubkey (in_partial_sigs i) ->
  match final_script_sig_and_witness inputs i with
  | Ok _ => gen2 inputs i u = None
  | Err e => exists q, gen2 inputs i u = Some q /\ e = error_of q
  | Panic => False
  end.
Proof.
  intros Hu Hs. unfold final_script_sig_and_witness, get_descriptor, gen2, gen. rewrite !(expect_funds i u Hu). cbn [bind].
  destruct (is_p2tr (to_script u)) eqn:Etr.
  { unfold construct_tap_witness, tap_b. rewrite Etr. cbn [panic_unless bind]. destruct (in_tap_key_sig i); cbn [is_some orb bind]; [reflexivity|].
    destruct (tap_loop _ _ _ _); cbn [ok_or bind is_some]; wrap. }
  destruct (is_p2pk (to_script u)).
  { destruct (de_pubkey _) as [pk| |]; cbn [bind]; try wrap. cbn [desc_satisfaction input_satisfier sat_ecdsa].
    destruct (m_get _ _ _); cbn [option_map ok_or bind is_some]; wrap. }
  assert (R : forall c mk b (F : ms -> ms),
    (forall m, F m = match c with CLegacy => m | _ => ms_substitute (known_keys inputs) m end) ->
    (forall m, exists g, desc_satisfaction (mk m) (input_satisfier i) = option_map g (ms_satisfy c m (input_satisfier i))) ->
    match (d <- (m <- ok_or (ms_parse c b) IEMiniscript ;; new_desc c mk (F m)) ;;
           '(w, ss) <- ok_or (desc_satisfaction d (input_satisfier i)) IEMiniscript ;; Ok (ss, w)) with
    | Ok _ => gen_run (runs_b (known_keys inputs) ms_satisfy (input_satisfier i)) c b = None
    | Err e => exists q, gen_run (runs_b (known_keys inputs) ms_satisfy (input_satisfier i)) c b = Some q /\ e = error_of q
    | Panic => False
    end).
  { intros c mk b F HF Hd. unfold gen_run, runs_b. destruct (ms_parse c b) as [m|]; cbn [ok_or bind]; [|wrap].
    cbv zeta. rewrite HF. set (m' := match c with CLegacy => m | _ => ms_substitute (known_keys inputs) m end). unfold new_desc.
    destruct (ms_top_level c m'); cbn [bind andb]; [|wrap]. destruct (Hd m') as [g Hg]. rewrite Hg.
    destruct (ms_satisfy c m' _); cbn [option_map ok_or bind is_some]; [|wrap]. destruct (g l); cbn. reflexivity. }
  assert (K : forall mk script,
    (forall k, exists g, desc_satisfaction (mk k) (input_satisfier i) = option_map g (m_get sk_pubkey k (in_partial_sigs i))) ->
    match (d <- match find_wpkh i script with Some (pk, _) => Ok (mk pk) | None => Err IEMissingPubkey end ;;
           '(w, ss) <- ok_or (desc_satisfaction d (input_satisfier i)) IEMiniscript ;; Ok (ss, w)) with
    | Ok _ => gen_wpkh (in_partial_sigs i) script = None
    | Err e => exists q, gen_wpkh (in_partial_sigs i) script = Some q /\ e = error_of q
    | Panic => False
    end).
  { intros mk script Hd. unfold find_wpkh, gen_wpkh. destruct (find _ _) as [[k sg]|] eqn:F; cbn [bind]; [|wrap].
    apply find_some in F as [F _]. destruct (Hd k) as [g Hg]. rewrite Hg, (sigs_get _ _ _ Hs F). cbn [option_map ok_or bind]. destruct (g sg); cbn. reflexivity. }
  destruct (is_p2pkh (to_script u)).
  { destruct (find _ _) as [[k sg]|] eqn:F; cbn [bind]; [|wrap]. apply find_some in F as [F _].
    cbn [desc_satisfaction input_satisfier sat_ecdsa]. rewrite (sigs_get _ _ _ Hs F). cbn. reflexivity. }
  destruct (is_p2wpkh (to_script u)).
  { apply (K DWpkh). intros k. cbn [desc_satisfaction input_satisfier sat_ecdsa]. eexists; reflexivity. }
  destruct (is_p2wsh (to_script u)).
  { destruct (in_redeem_script i); cbn [is_some bind]; [wrap|]. unfold gen_wsh. destruct (in_witness_script i) as [w|]; cbn [bind]; [|wrap].
    destruct (bytes_eqb _ _); cbn [negb bind]; [|wrap]. apply (R CSegwitv0 DWsh w (ms_substitute (known_keys inputs))); [reflexivity|].
    intros m. eexists; reflexivity. }
  destruct (is_p2sh (to_script u)).
  { destruct (in_redeem_script i) as [r|]; cbn [bind]; [|wrap]. destruct (bytes_eqb (to_p2sh r) _); cbn [negb bind]; [|wrap].
    destruct (is_p2wsh r).
    { unfold gen_wsh. destruct (in_witness_script i) as [w|]; cbn [bind]; [|wrap].
      destruct (bytes_eqb _ _); cbn [negb bind]; [|wrap]. apply (R CSegwitv0 DShWsh w (ms_substitute (known_keys inputs))); [reflexivity|].
      intros m. eexists; reflexivity. }
    destruct (is_p2wpkh r).
    { apply (K DShWpkh). intros k. cbn [desc_satisfaction input_satisfier sat_ecdsa]. eexists; reflexivity. }
    destruct (in_witness_script i); cbn [is_some bind]; [wrap|]. apply (R CLegacy DSh r (fun m => m)); [reflexivity|]. intros m. eexists; reflexivity. }
  destruct (in_witness_script i); cbn [is_some bind]; [wrap|]. destruct (in_redeem_script i); cbn [is_some bind]; [wrap|].
  apply (R CBare DBare (to_script u) (ms_substitute (known_keys inputs))); [reflexivity|]. intros m. eexists; reflexivity.
Qed.

Lemma error_of_inj q q' : error_of q = error_of q' -> q = q'.
Proof. destruct q, q'; cbn; congruence. Qed.
Lemma error_of0_inj q q' : error_of0 q = error_of0 q' -> q = q'.
Proof. destruct q, q'; cbn; congruence. Qed.

Lemma final_err_iff {L : ExtLaws X} inputs i u e : funds i u -> m_sorted sk_pubkey (in_partial_sigs i) ->
  (final_script_sig_and_witness inputs i = Err e <-> exists q, cannot (spending_of inputs i u) q /\ e = error_of q).
Proof.
  intros Hu Hs. pose proof (final_gen inputs i u Hu Hs) as F. split.
  - intros H. rewrite H in F. destruct F as (q & F & ->). exists q. split; [now apply gen2_iff|reflexivity].
  - intros (q & H & ->). apply gen2_iff in H; [|assumption]. destruct (final_script_sig_and_witness inputs i) as [?|e|].
    + congruence.
    + destruct F as (q' & F & ->). congruence.
    + destruct F.
Qed.
Lemma final_ok_iff {L : ExtLaws X} inputs i u : funds i u -> m_sorted sk_pubkey (in_partial_sigs i) ->
  ((exists r, final_script_sig_and_witness inputs i = Ok r) <-> forall q, ~ cannot (spending_of inputs i u) q).
Proof.
  intros Hu Hs. pose proof (final_gen inputs i u Hu Hs) as F. split.
  - intros [r H] q Hq. rewrite H in F. apply gen2_iff in Hq; [|assumption]. congruence.
  - intros H. destruct (final_script_sig_and_witness inputs i) as [r|e|].
    + now exists r.
    + destruct F as (q & F & _). exfalso. apply (H q). now apply gen2_iff.
    + destruct F.
Qed.

(** Whether there is a witness. *)
Definition wit_b (spk : bytes) (rs : option bytes) : bool :=
  is_p2tr spk || is_p2wpkh spk || is_p2wsh spk
  || is_p2sh spk && match rs with Some r => is_p2wsh r || is_p2wpkh r | None => false end.
Lemma wit_b_iff s : wit_b (sp_output s) (sp_redeem s) = true <-> witness_output s.
Proof.
  unfold wit_b, witness_output. rewrite !orb_true_iff, andb_true_iff, is_p2tr_iff, is_p2wpkh_iff, is_p2wsh_iff, is_p2sh_iff. split.
  - intros [[[[h H]|[h H]]|[h H]]|[H1 H2]]; [left; exists h; auto..|]. right. split; [assumption|]. destruct (sp_redeem s) as [r|]; [|discriminate].
    apply orb_true_iff in H2. rewrite is_p2wsh_iff, is_p2wpkh_iff in H2. destruct H2 as [[h H2]|[h H2]]; exists r, h; auto.
  - intros [[h [H|[H|H]]]|[H1 (r & h & E & H2)]].
    + left. left. right. now exists h.
    + left. right. now exists h.
    + left. left. left. now exists h.
    + right. split; [assumption|]. rewrite E. apply orb_true_iff. rewrite is_p2wsh_iff, is_p2wpkh_iff. destruct H2; [right|left]; now exists h.
Qed.
Lemma pk_flags s : is_p2pk s = true -> is_p2wpkh s = false /\ is_p2wsh s = false /\ is_p2sh s = false.
Proof.
  intros H. pose proof (p2pk_length s H) as Ln. repeat split.
  - apply (not_by_length _ _ 22%nat (p2wpkh_length s)). lia.
  - apply (not_by_length _ _ 34%nat (p2wsh_length s)). lia.
  - apply (not_by_length _ _ 23%nat (p2sh_length s)). lia.
Qed.
Lemma pkh_flags s : is_p2pkh s = true -> is_p2wpkh s = false /\ is_p2wsh s = false /\ is_p2sh s = false.
Proof.
  intros H. pose proof (p2pkh_length s H) as Ln. repeat split.
  - apply (not_by_length _ _ 22%nat (p2wpkh_length s)). lia.
  - apply (not_by_length _ _ 34%nat (p2wsh_length s)). lia.
  - apply (not_by_length _ _ 23%nat (p2sh_length s)). lia.
Qed.
Definition is_nil {A} (l : list A) : bool := match l with [] => true | _ => false end.
Lemma is_nil_app {A} (l : list A) x : is_nil (l ++ [x]) = false.
Proof. now destruct l. Qed.
Lemma final_witness_b inputs i u ss w : funds i u -> final_script_sig_and_witness inputs i = Ok (ss, w) ->
  is_nil w = negb (wit_b (to_script u) (in_redeem_script i)).
Proof.
  intros Hu H. unfold final_script_sig_and_witness, get_descriptor in H. rewrite !(expect_funds i u Hu) in H. cbn [bind] in H.
  unfold wit_b. set (spk := to_script u) in *. clearbody spk.
  destruct (is_p2tr spk) eqn:Etr.
  { cbn [orb negb]. unfold construct_tap_witness in H. rewrite Etr in H. cbn [panic_unless bind] in H.
    destruct (in_tap_key_sig i) as [sg|].
    - cbn [bind] in H. injection H as <- <-. reflexivity.
    - pose proof (tap_loop_spec (tap_key_map i) (input_satisfier i) (in_tap_scripts i) None) as S0. destruct (tap_loop _ _ _ _) as [x|]; [|discriminate].
      cbn [ok_or bind] in H. injection H as <- <-. destruct S0 as [[S0|(leaf & S1 & S2)] _]; [discriminate|]. apply (leaf_witness_iff i x leaf S1) in S2.
      destruct S2 as (? & ? & ? & ? & _ & _ & _ & ->). match goal with |- is_nil (?l ++ _) = _ => now destruct l end. }
  cbn [orb].
  destruct (is_p2pk spk) eqn:Epk.
  { destruct (pk_flags _ Epk) as (-> & -> & ->). cbn [orb andb negb]. destruct (de_pubkey _) as [pk| |]; cbn [bind] in H; try discriminate.
    cbn [desc_satisfaction] in H. destruct (sat_ecdsa _ _); cbn [option_map ok_or bind] in H; [|discriminate]. injection H as <- <-. reflexivity. }
  destruct (is_p2pkh spk) eqn:Epkh.
  { destruct (pkh_flags _ Epkh) as (-> & -> & ->). cbn [orb andb negb]. destruct (find _ _) as [[k sg]|]; cbn [bind] in H; [|discriminate].
    cbn [desc_satisfaction] in H. destruct (sat_ecdsa _ _); cbn [option_map ok_or bind] in H; [|discriminate]. injection H as <- <-. reflexivity. }
  destruct (is_p2wpkh spk).
  { cbn [orb negb]. destruct (find_wpkh _ _) as [[k sg]|]; cbn [bind] in H; [|discriminate].
    cbn [desc_satisfaction] in H. destruct (sat_ecdsa _ _); cbn [option_map ok_or bind] in H; [|discriminate]. injection H as <- <-. reflexivity. }
  destruct (is_p2wsh spk).
  { cbn [orb negb]. destruct (in_redeem_script i); cbn [is_some bind] in H; [discriminate|]. destruct (in_witness_script i) as [x|]; cbn [bind] in H; [|discriminate].
    destruct (bytes_eqb _ _); cbn [negb bind] in H; [|discriminate]. destruct (ms_parse _ _) as [m|]; cbn [ok_or bind] in H; [|discriminate].
    unfold new_desc in H. destruct (ms_top_level _ _); cbn [bind] in H; [|discriminate]. cbn [desc_satisfaction] in H.
    destruct (ms_satisfy _ _ _); cbn [option_map ok_or bind] in H; [|discriminate]. injection H as <- <-. apply is_nil_app. }
  cbn [orb]. destruct (is_p2sh spk).
  { cbn [andb]. destruct (in_redeem_script i) as [r|]; cbn [bind] in H; [|discriminate]. destruct (bytes_eqb (to_p2sh r) _); cbn [negb bind] in H; [|discriminate].
    destruct (is_p2wsh r).
    { cbn [orb negb]. destruct (in_witness_script i) as [x|]; cbn [bind] in H; [|discriminate].
      destruct (bytes_eqb _ _); cbn [negb bind] in H; [|discriminate]. destruct (ms_parse _ _) as [m|]; cbn [ok_or bind] in H; [|discriminate].
      unfold new_desc in H. destruct (ms_top_level _ _); cbn [bind] in H; [|discriminate]. cbn [desc_satisfaction] in H.
      destruct (ms_satisfy _ _ _); cbn [option_map ok_or bind] in H; [|discriminate]. injection H as <- <-. apply is_nil_app. }
    destruct (is_p2wpkh r).
    { cbn [orb negb]. destruct (find_wpkh _ _) as [[k sg]|]; cbn [bind] in H; [|discriminate].
      cbn [desc_satisfaction] in H. destruct (sat_ecdsa _ _); cbn [option_map ok_or bind] in H; [|discriminate]. injection H as <- <-. reflexivity. }
    cbn [orb negb]. destruct (in_witness_script i); cbn [is_some bind] in H; [discriminate|]. destruct (ms_parse _ _) as [m|]; cbn [ok_or bind] in H; [|discriminate].
    unfold new_desc in H. destruct (ms_top_level _ _); cbn [bind] in H; [|discriminate]. cbn [desc_satisfaction] in H.
    destruct (ms_satisfy _ _ _); cbn [option_map ok_or bind] in H; [|discriminate]. injection H as <- <-. reflexivity. }
  cbn [andb negb]. destruct (in_witness_script i); cbn [is_some bind] in H; [discriminate|]. destruct (in_redeem_script i); cbn [is_some bind] in H; [discriminate|].
  destruct (ms_parse _ _) as [m|]; cbn [ok_or bind] in H; [|discriminate].
  unfold new_desc in H. destruct (ms_top_level _ _); cbn [bind] in H; [|discriminate]. cbn [desc_satisfaction] in H.
  destruct (ms_satisfy _ _ _); cbn [option_map ok_or bind] in H; [|discriminate]. injection H as <- <-. reflexivity.
Qed.
Lemma final_witness inputs i u ss w : funds i u -> final_script_sig_and_witness inputs i = Ok (ss, w) ->
  (w <> [] <-> witness_output (spending_of inputs i u)).
Proof.
  intros Hu H. rewrite <- wit_b_iff. cbn [spending_of sp_output sp_redeem]. pose proof (final_witness_b inputs i u ss w Hu H) as B.
  destruct w; cbn [is_nil] in B; destruct (wit_b _ _); cbn [negb] in B; try discriminate; split; congruence.
Qed.

End Runs.

(** ** v0 *)
Section V0.
Context `{X : Ext} `{M : MsExt} `{NM : !MsNmExt M}.
Variable mall : bool.
Variable p : psbt0.
Variable n : N.
Variable s : txin * input0.
Variable u : txout.
Let z := psbt_input_satisfier (p0_unsigned_tx p) (fst s) (snd s).
Let sat : msctx -> ms -> satisfier -> option (list bytes) := if mall then ms_satisfy else ms_satisfy_nm.

Definition tap0_b : bool :=
  is_some (i0_tap_key_sig (snd s)) || is_some (tap_loop0 mall (tap_key_map0 (p0_inputs p)) z (i0_tap_scripts (snd s)) None).
Lemma leaf_found0_iff : leaf_found0 mall p s <->
  exists leaf w, In leaf (i0_tap_scripts (snd s)) /\ leaf_witness0 mall (tap_key_map0 (p0_inputs p)) z leaf = Some w.
Proof.
  unfold leaf_found0. fold z sat. split.
  - intros (cb & script & m & st & H1 & H2 & H3). exists (cb, (script, 192)), (st ++ [ms_encode (ms_substitute_tap (tap_key_map0 (p0_inputs p)) m); ser_controlblock cb]).
    split; [assumption|]. cbn [leaf_witness0]. cbn [N.eqb Pos.eqb negb]. rewrite H2. unfold satisfy0. fold sat. rewrite H3. reflexivity.
  - intros ([cb [script ver]] & w & H1 & H2). cbn [leaf_witness0] in H2. destruct (ver =? 192) eqn:Ev; cbn [negb] in H2; [|discriminate].
    apply N.eqb_eq in Ev. subst ver. destruct (ms_parse CTap script) as [m|] eqn:Em; [|discriminate]. unfold satisfy0 in H2. fold sat in H2.
    destruct (sat CTap _ _) as [st|] eqn:Es; [|discriminate]. exists cb, script, m, st. auto.
Qed.
Lemma tap0_b_iff : tap0_b = true <-> i0_tap_key_sig (snd s) <> None \/ leaf_found0 mall p s.
Proof.
  rewrite leaf_found0_iff. unfold tap0_b. destruct (i0_tap_key_sig (snd s)) as [g|]; cbn [is_some orb].
  - split; [left; discriminate|reflexivity].
  - pose proof (tap_loop0_spec mall (tap_key_map0 (p0_inputs p)) z (i0_tap_scripts (snd s)) None) as T.
    destruct (tap_loop0 _ _ _ _ _) as [w|]; cbn [is_some].
    + split; [|reflexivity]. intros _. right. destruct T as [[T|(leaf & T1 & T2)] _]; [discriminate|]. now exists leaf, w.
    + split; [discriminate|]. intros [H|(leaf & w & H1 & H2)]; [congruence|]. destruct T as [_ T]. now rewrite (T _ H1) in H2.
Qed.
Definition gen0 : option problem :=
  gen (to_script u) (i0_redeem_script (snd s)) (i0_witness_script (snd s)) (i0_partial_sigs (snd s))
    (runs_b (known_keys0 (p0_inputs p)) sat z) tap0_b.
Lemma gen0_iff {L : ExtLaws X} q : m_sorted sk_pubkey (i0_partial_sigs (snd s)) ->
  (cannot (spending_of0 mall p s u) q <-> gen0 = Some q).
Proof.
  intros Hs. apply gen_iff; cbn [spending_of0 sp_output sp_redeem sp_script sp_signed sp_runs sp_taproot]; try reflexivity; try assumption.
  - intros c b. apply runs_b_iff.
  - apply tap0_b_iff.
Qed.

Hypothesis Hat : spend_at p n s.
Hypothesis Hu : funds0 s u.

Ltac wrap := first [reflexivity | eexists; split; reflexivity].
Lemma final0_gen : m_sorted sk_pubkey (i0_partial_sigs (snd s)) ->
  match build_final mall p n with
  | Ok _ => gen0 = None
  | Err e => exists q, gen0 = Some q /\ e = error_of0 q
  | Panic => False
  end.
Proof.
  intros Hs. rewrite (build_known mall p n s u Hat Hu). unfold final0, get_descriptor0, gen0, gen. fold z.
  rewrite (spk_known p n s u Hat Hu), (map_known p n s Hat). cbn [expect ok_or bind].
  set (spk := to_script u). clearbody spk. set (i := snd s) in *.
  destruct (is_p2tr spk) eqn:Etr.
  { unfold construct_tap_witness0, tap0_b. rewrite Etr. cbn [panic_unless bind]. fold i. change (sat_tap_key z) with (i0_tap_key_sig i).
    destruct (i0_tap_key_sig i); cbn [is_some orb bind]; [reflexivity|].
    destruct (tap_loop0 _ _ _ _ _); cbn [ok_or bind is_some]; wrap. }
  assert (G : forall k, sat_ecdsa z k = m_get sk_pubkey k (i0_partial_sigs i)) by reflexivity.
  destruct (is_p2pk spk).
  { destruct (de_pubkey _) as [pk| |]; cbn [bind]; try wrap. cbn [desc_satisfaction0]. rewrite G.
    destruct (m_get _ _ _); cbn [option_map ok_or bind is_some]; wrap. }
  assert (R : forall c mk b (F : ms -> ms),
    (forall m, F m = match c with CLegacy => m | _ => ms_substitute (known_keys0 (p0_inputs p)) m end) ->
    (forall m, exists g, desc_satisfaction0 mall (mk m) z = option_map g (sat c m z)) ->
    match (d <- (m <- ok_or (ms_parse c b) J0Miniscript ;; new_desc0 c mk (F m)) ;;
           ok_or (desc_satisfaction0 mall d z) J0Miniscript) with
    | Ok _ => gen_run (runs_b (known_keys0 (p0_inputs p)) sat z) c b = None
    | Err e => exists q, gen_run (runs_b (known_keys0 (p0_inputs p)) sat z) c b = Some q /\ e = error_of0 q
    | Panic => False
    end).
  { intros c mk b F HF Hd. unfold gen_run, runs_b. destruct (ms_parse c b) as [m|]; cbn [ok_or bind]; [|wrap].
    cbv zeta. rewrite HF. set (m' := match c with CLegacy => m | _ => ms_substitute (known_keys0 (p0_inputs p)) m end). unfold new_desc0.
    destruct (ms_top_level c m'); cbn [bind andb]; [|wrap]. destruct (Hd m') as [g Hg]. rewrite Hg.
    destruct (sat c m' _); cbn [option_map ok_or bind is_some]; wrap. }
  assert (K : forall mk script,
    (forall k, exists g, desc_satisfaction0 mall (mk k) z = option_map g (m_get sk_pubkey k (i0_partial_sigs i))) ->
    match (d <- match find_wpkh0 i script with Some (pk, _) => Ok (mk pk) | None => Err J0MissingPubkey end ;;
           ok_or (desc_satisfaction0 mall d z) J0Miniscript) with
    | Ok _ => gen_wpkh (i0_partial_sigs i) script = None
    | Err e => exists q, gen_wpkh (i0_partial_sigs i) script = Some q /\ e = error_of0 q
    | Panic => False
    end).
  { intros mk script Hd. unfold find_wpkh0, gen_wpkh. destruct (find _ _) as [[k sg]|] eqn:F; cbn [bind]; [|wrap].
    apply find_some in F as [F _]. destruct (Hd k) as [g Hg]. rewrite Hg, (sigs_get _ _ _ Hs F). cbn [option_map ok_or bind]. reflexivity. }
  destruct (is_p2pkh spk).
  { destruct (find _ _) as [[k sg]|] eqn:F; cbn [bind]; [|wrap]. apply find_some in F as [F _].
    cbn [desc_satisfaction0]. rewrite G, (sigs_get _ _ _ Hs F). reflexivity. }
  destruct (is_p2wpkh spk).
  { apply (K DWpkh). intros k. cbn [desc_satisfaction0]. rewrite G. eexists; reflexivity. }
  destruct (is_p2wsh spk).
  { destruct (i0_redeem_script i); cbn [is_some bind]; [wrap|]. unfold gen_wsh. destruct (i0_witness_script i) as [w|]; cbn [bind]; [|wrap].
    destruct (bytes_eqb _ _); cbn [negb bind]; [|wrap]. apply (R CSegwitv0 DWsh w (ms_substitute (known_keys0 (p0_inputs p)))); [reflexivity|].
    intros m. eexists; reflexivity. }
  destruct (is_p2sh spk).
  { destruct (i0_redeem_script i) as [r|]; cbn [bind]; [|wrap]. destruct (bytes_eqb (to_p2sh r) _); cbn [negb bind]; [|wrap].
    destruct (is_p2wsh r).
    { unfold gen_wsh. destruct (i0_witness_script i) as [w|]; cbn [bind]; [|wrap].
      destruct (bytes_eqb _ _); cbn [negb bind]; [|wrap]. apply (R CSegwitv0 DShWsh w (ms_substitute (known_keys0 (p0_inputs p)))); [reflexivity|].
      intros m. eexists; reflexivity. }
    destruct (is_p2wpkh r).
    { apply (K DShWpkh). intros k. cbn [desc_satisfaction0]. rewrite G. eexists; reflexivity. }
    destruct (i0_witness_script i); cbn [is_some bind]; [wrap|]. apply (R CLegacy DSh r (fun m => m)); [reflexivity|]. intros m. eexists; reflexivity. }
  destruct (i0_witness_script i); cbn [is_some bind]; [wrap|]. destruct (i0_redeem_script i); cbn [is_some bind]; [wrap|].
  apply (R CBare DBare spk (ms_substitute (known_keys0 (p0_inputs p)))); [reflexivity|]. intros m. eexists; reflexivity.
Qed.
Lemma final0_err_iff {L : ExtLaws X} e : m_sorted sk_pubkey (i0_partial_sigs (snd s)) ->
  (build_final mall p n = Err e <-> exists q, cannot (spending_of0 mall p s u) q /\ e = error_of0 q).
Proof.
  intros Hs. pose proof (final0_gen Hs) as F. split.
  - intros H. rewrite H in F. destruct F as (q & F & ->). exists q. split; [now apply gen0_iff|reflexivity].
  - intros (q & H & ->). apply gen0_iff in H; [|assumption]. destruct (build_final mall p n) as [?|e|].
    + congruence.
    + destruct F as (q' & F & ->). congruence.
    + destruct F.
Qed.
Lemma final0_ok_iff {L : ExtLaws X} : m_sorted sk_pubkey (i0_partial_sigs (snd s)) ->
  ((exists r, build_final mall p n = Ok r) <-> forall q, ~ cannot (spending_of0 mall p s u) q).
Proof.
  intros Hs. pose proof (final0_gen Hs) as F. split.
  - intros [r H] q Hq. rewrite H in F. apply gen0_iff in Hq; [|assumption]. congruence.
  - intros H. destruct (build_final mall p n) as [r|e|].
    + now exists r.
    + destruct F as (q & F & _). exfalso. apply (H q). now apply gen0_iff.
    + destruct F.
Qed.
End V0.

Lemma build_unknown `{X : Ext} `{M : MsExt} `{NM : !MsNmExt M} mall p n s : spend_at p n s -> no_utxo s -> build_final mall p n = Err J0MissingUtxo.
Proof.
  intros Hs Hn. unfold build_final, get_scriptpubkey. pose proof (get_utxo_spec p n s Hs) as G. destruct Hn as [N1 N2]. destruct (get_utxo p n) as [u|e|].
  - destruct G as [G|(_ & t & G & _)]; congruence.
  - destruct G as [-> _]. reflexivity.
  - destruct G as (_ & t & G & _). congruence.
Qed.
Lemma spend_cases s : no_utxo s \/ vout_out_of_bounds s \/ exists u, funds0 s u.
Proof.
  unfold no_utxo, vout_out_of_bounds, funds0. destruct (i0_witness_utxo (snd s)) as [u|]; [right; right; exists u; now left|].
  destruct (i0_non_witness_utxo (snd s)) as [t|]; [|now left; split]. right.
  destruct (nth_error (tx_output t) (N.to_nat (ti_vout (fst s)))) as [u|] eqn:E.
  - right. exists u. right. split; [reflexivity|]. exists t. auto.
  - left. split; [reflexivity|]. exists t. split; [reflexivity|]. apply nth_error_None in E. lia.
Qed.

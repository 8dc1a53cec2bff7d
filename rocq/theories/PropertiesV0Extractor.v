(** C28, C71, C72 for v0 and C91-C93: finalizing and extracting v0 PSBTs
    (src/v0/miniscript/finalizer.rs, src/v0/miniscript/mod.rs:381-423, 592-718). *)
From Coq Require Import Sorted.
From Verif Require Import Base OMap Consensus ConsensusFacts Ext ExtInstance Raw RawFacts TapTree Serialize SerializeFacts MapCodec V2Global V2Input
  SpecCodec V2Psbt SpecPsbt V2Roles SpecRoles V2RolesFacts SampleV2 Script SighashType V2Sign SignInstance SpecSign V2SignFacts
  V2Finalize SpecFinalize MsInstance V2SpendFacts V0Error V0Input V0Output V0Psbt SpecPsbt0 V0PsbtFacts V0WireFacts SampleV0
  PropertiesV0Codec SpecExtract0 V0ExtractFacts V0Sign SchnorrInstance SpecSign0 V0SignFacts PropertiesV0Sign
  V0Finalize SpecFinalize0 V0FinalizeFacts V0SpendFacts MsInstance0 PropertiesV0Finalize.
Local Open Scope N_scope.

(** Used by the examples only; the theorems bind their own. *)
#[local] Existing Instance toy | 100.
#[local] Existing Instance toy_sign | 100.
#[local] Existing Instance toy_schnorr | 100.
#[local] Existing Instance toy_ms0 | 100.
#[local] Existing Instance toy_nm | 100.

Lemma firstn_S_nth {A} (l l' : list A) k a : firstn k l = firstn k l' -> nth_error l k = Some a -> nth_error l' k = Some a ->
  firstn (Datatypes.S k) l = firstn (Datatypes.S k) l'.
Proof.
  revert l l'. induction k as [|k IH]; intros [|x l] [|y l'] H H1 H2; try discriminate; cbn [nth_error firstn] in *.
  - injection H1 as ->. injection H2 as ->. reflexivity.
  - injection H as -> H. change (y :: firstn (Datatypes.S k) l = y :: firstn (Datatypes.S k) l'). f_equal. now apply IH.
Qed.

(** ** C72: when finalizing succeeds *)

Lemma result_utxos `{X : Ext} `{M : MsExt} `{NM : !MsNmExt M} mall p q errs : one_map_per_input p -> finalize_any mall p = Ok (q, errs) ->
  Forall2 same_utxos (p0_inputs p) (p0_inputs q).
Proof.
  intros Hone H. pose proof (finalize_any_steps mall p Hone) as Hst. rewrite H in Hst. destruct Hst as (r & l' & Hst & Hqr & _). apply steps_utxos in Hst. rewrite Hqr. exact Hst.
Qed.
(** All inputs are finalized, in order, with what is found for them and accepted for the transaction
    of the PSBT, with its sequences and lock time. *)
Definition all_final `{X : Ext} `{M : MsExt} `{NM : !MsNmExt M} (mall : bool) (p q : psbt0) : Prop :=
  q = set_p0_inputs (p0_inputs q) p /\ length (p0_inputs q) = length (p0_inputs p)
  /\ forall n i i', nth_error (p0_inputs p) (N.to_nat n) = Some i -> nth_error (p0_inputs q) (N.to_nat n) = Some i' ->
       exists w ss, built mall (stage p q n) n w ss /\ accepted p n w ss /\ final_input0 w ss i i'.
Lemma all_final_utxos `{X : Ext} `{M : MsExt} `{NM : !MsNmExt M} mall p q : all_final mall p q -> Forall2 same_utxos (p0_inputs p) (p0_inputs q).
Proof.
  intros (_ & Hl & H). apply F2_of_nth; [now symmetry|]. intros k i i' Hi Hi'. specialize (H (N.of_nat k) i i'). rewrite Nat2N.id in H. destruct (H Hi Hi') as (w & ss & _ & _ & F).
  split; symmetry; [apply (fi0_witness_utxo _ _ _ _ F)|apply (fi0_non_witness_utxo _ _ _ _ F)].
Qed.
Theorem C72_v0 : forall (X : Ext) (M : MsExt) (NM : MsNmExt M) mall p q,
  one_map_per_input p -> (finalize_any mall p = Ok (q, []) <-> all_final mall p q).
Proof.
  intros X M NM mall p q Hone. split.
  - intros H. destruct (C52_v0_result X M NM mall p q [] Hone H) as (Hq & Hl & Hat & l & He & _ & Hin). split; [assumption|]. split; [assumption|].
    intros n i i' Hi Hi'. destruct (Hat n i i' Hi Hi') as [Hat'|(_ & e & Hf)]; [assumption|]. exfalso. destruct l; [|discriminate].
    assert (Hn : n < blen (p0_inputs p)). { assert (Q : nth_error (p0_inputs p) (N.to_nat n) <> None) by congruence. apply nth_error_Some in Q. unfold blen. lia. }
    exact (proj2 (Hin n e) (conj Hn Hf)).
  - intros Hall. pose proof (all_final_utxos mall p q Hall) as Hu. destruct Hall as (Hq & Hl & Hat).
    assert (Hget : forall (x : psbt0) n, length (p0_inputs x) = length (p0_inputs p) -> n < blen (p0_inputs p) -> exists i, nth_error (p0_inputs x) (N.to_nat n) = Some i).
    { intros x n Hx Hn. destruct (nth_error (p0_inputs x) (N.to_nat n)) as [i|] eqn:E; [eauto|]. apply nth_error_None in E. unfold blen in Hn. lia. }
    destruct (finalize_any mall p) as [[q' errs]|e|] eqn:E.
    + destruct (C52_v0_result X M NM mall p q' errs Hone E) as (Hq' & Hl' & Hat' & l & He & _ & Hin).
      assert (Hpre : forall k, (k <= length (p0_inputs p))%nat -> firstn k (p0_inputs q') = firstn k (p0_inputs q)).
      { induction k as [|k IH]; intros Hk; [reflexivity|]. assert (Hst : stage p q' (N.of_nat k) = stage p q (N.of_nat k)) by (unfold stage; rewrite Nat2N.id, IH by lia; reflexivity).
        assert (Hn : N.of_nat k < blen (p0_inputs p)) by (unfold blen; lia).
        destruct (Hget p _ eq_refl Hn) as [i Hi], (Hget q _ Hl Hn) as [iq Hiq], (Hget q' _ Hl' Hn) as [iq' Hiq'].
        destruct (Hat _ _ _ Hi Hiq) as (w & ss & Hb & Ha & F).
        assert (Heq : iq' = iq).
        { destruct (Hat' _ _ _ Hi Hiq') as [(w' & ss' & Hb' & _ & F')|(_ & e & Hf)].
          - rewrite Hst in Hb'. unfold built in *. rewrite Hb in Hb'. injection Hb' as <- <-. apply final_input0_iff in F. apply final_input0_iff in F'. congruence.
          - exfalso. rewrite Hst in Hf. apply (fails_not_done _ _ _ _ Hf). exists w, ss. split; [assumption|]. revert Ha. apply same_verdict. now apply stage_funding. }
        rewrite Nat2N.id in Hiq, Hiq'. subst iq'. specialize (IH ltac:(lia)). apply firstn_S_nth with (a := iq) in IH; auto. }
      assert (Hqq : q' = q).
      { rewrite Hq, Hq'. f_equal. rewrite <- (firstn_all (p0_inputs q)), <- (firstn_all (p0_inputs q')), Hl, Hl'. apply Hpre. lia. }
      subst q'. f_equal. f_equal. destruct l as [|[n e] l]; [assumption|]. exfalso. destruct (proj1 (Hin n e) (or_introl eq_refl)) as [Hn Hf].
      destruct (Hget p _ eq_refl Hn) as [i Hi], (Hget q _ Hl Hn) as [iq Hiq]. destruct (Hat _ _ _ Hi Hiq) as (w & ss & Hb & Ha & F).
      apply (fails_not_done _ _ _ _ Hf). exists w, ss. split; [assumption|]. revert Ha. apply same_verdict. now apply stage_funding.
    + destruct e.
    + exfalso. apply (C48_finalize_panic_iff X M NM mall p Hone) in E. pose proof E as E'. apply Exists_exists in E' as ([t i] & Hin & _). apply spend_at_in in Hin as (n & Hs).
      apply spend_at_lt in Hs as Hn. apply spend_at_iff in Hs as [_ Hi]. destruct (Hget q n Hl) as [iq Hiq]; [apply Hn|].
      destruct (Hat _ _ _ Hi Hiq) as (w & ss & _ & (_ & _ & us & _ & _ & Hus & _) & _). now apply (oob_spent p us).
Qed.
Print Assumptions C72_v0.
Example C72_v0_example : one_map_per_input fy_done /\ finalize_any true fy_done = Ok (fy_final fy_done, []) /\ finalize_any false fy_done = Ok (fy_final fy_done, []).
Proof. split; [reflexivity|]. split; vm_compute; reflexivity. Qed.

(** ** C92: checked extraction *)

Definition std_type (ty : N) : Prop := In ty [0x01; 0x02; 0x03; 0x81; 0x82; 0x83].
Lemma sanity_sigs_spec ty l : std_type ty ->
  match sanity_check_sigs ty l with
  | Ok _ => Forall (fun e => es_type (snd e) = ty) l
  | Err J0NonStandardSighash => exists k s, In (k, s) l /\ ~ std_type (es_type s)
  | Err (J0WrongSighashFlag r g k) => exists s, In (k, s) l /\ es_type s = g /\ r = ty /\ g <> r
  | Err _ | Panic => False
  end.
Proof.
  intros Hty. induction l as [|[k s] l IH]; cbn [sanity_check_sigs]; [constructor|].
  destruct (ecdsa_from_standard (es_type s)) as [f|] eqn:Ef; cbn [ok_or bind].
  - apply ecdsa_std_iff in Ef as [-> Hs]. destruct (N.eqb_spec ty (es_type s)) as [E|E]; cbn [negb fail_if bind].
    + destruct (sanity_check_sigs ty l) as [[]|e|]; [|destruct e; try contradiction|assumption].
      * constructor; [now symmetry|assumption].
      * destruct IH as (k' & s' & H1 & H2). exists k', s'. split; [now right|assumption].
      * destruct IH as (s' & H1 & H2). exists s'. split; [now right|assumption].
    + exists s. split; [now left|]. split; [reflexivity|]. split; [reflexivity|congruence].
  - exists k, s. split; [now left|]. intros Hs. assert (Q : ecdsa_from_standard (es_type s) = Some (es_type s)) by now apply ecdsa_std_iff. congruence.
Qed.
(** What is wrong with the sighash types. *)
Definition sanity_error (p : psbt0) (e : msferr0) : Prop :=
  match e with
  | M0WrongInputCount a b => a = blen (tx_input (p0_unsigned_tx p)) /\ b = blen (p0_inputs p) /\ a <> b
  | M0Input J0NonStandardSighashType n =>
      exists i, nth_error (p0_inputs p) (N.to_nat n) = Some i /\ forall ty, ~ type_of_input0 i ty
  | M0Input J0NonStandardSighash n =>
      exists i k s, nth_error (p0_inputs p) (N.to_nat n) = Some i /\ In (k, s) (i0_partial_sigs i) /\ ~ std_type (es_type s)
  | M0Input (J0WrongSighashFlag r g k) n =>
      exists i s, nth_error (p0_inputs p) (N.to_nat n) = Some i /\ In (k, s) (i0_partial_sigs i) /\ type_of_input0 i r /\ es_type s = g /\ g <> r
  | _ => False
  end.
Lemma sanity_inputs_spec p : forall l k, (forall j, nth_error l j = nth_error (p0_inputs p) (k + j)) ->
  match sanity_check_inputs (N.of_nat k) l with
  | Ok _ => Forall signatures_typed l
  | Err e => sanity_error p e
  | Panic => False
  end.
Proof.
  induction l as [|i l IH]; intros k Hk; cbn [sanity_check_inputs]; [constructor|].
  assert (Hi : nth_error (p0_inputs p) (N.to_nat (N.of_nat k)) = Some i) by (rewrite Nat2N.id; specialize (Hk 0%nat); rewrite Nat.add_0_r in Hk; now symmetry).
  destruct (input0_ecdsa_hash_ty i) as [ty|] eqn:Ety; cbn [ok_or map_err bind].
  - apply hash_ty0_iff in Ety. pose proof (sanity_sigs_spec ty (i0_partial_sigs i) (proj1 Ety)) as Hs.
    destruct (sanity_check_sigs ty (i0_partial_sigs i)) as [[]|e|]; cbn [map_err bind]; [| |contradiction].
    + replace (N.of_nat k + 1) with (N.of_nat (Datatypes.S k)) by lia. specialize (IH (Datatypes.S k)).
      assert (Hk' : forall j, nth_error l j = nth_error (p0_inputs p) (Datatypes.S k + j)).
      { intros j. specialize (Hk (Datatypes.S j)). cbn [nth_error] in Hk. rewrite Hk. f_equal. lia. }
      specialize (IH Hk'). destruct (sanity_check_inputs _ l) as [[]|e|]; auto. constructor; [|assumption]. exists ty. auto.
    + destruct e; try contradiction; cbn [sanity_error].
      * destruct Hs as (k' & s & H1 & H2). exists i, k', s. auto.
      * destruct Hs as (s & H1 & H2 & -> & H3). exists i, s. auto.
  - cbn [sanity_error]. exists i. split; [assumption|]. intros ty Hty. apply hash_ty0_iff in Hty. congruence.
Qed.
Lemma sanity_spec p :
  match sanity_check p with
  | Ok _ => one_map_per_input p /\ Forall signatures_typed (p0_inputs p)
  | Err e => sanity_error p e
  | Panic => False
  end.
Proof.
  unfold sanity_check. cbv zeta. destruct (N.eqb_spec (blen (tx_input (p0_unsigned_tx p))) (blen (p0_inputs p))) as [E|E]; cbn [negb fail_if bind].
  - pose proof (sanity_inputs_spec p (p0_inputs p) 0 (fun j => eq_refl)) as H. cbn [N.of_nat] in H. destruct (sanity_check_inputs 0 (p0_inputs p)) as [[]|e|]; auto.
    split; [unfold one_map_per_input, blen in *; lia|assumption].
  - cbn [sanity_error]. auto.
Qed.
Lemma sanity_error_bad p e : sanity_error p e -> ~ (one_map_per_input p /\ Forall signatures_typed (p0_inputs p)).
Proof.
  intros H [Hone Ht]. rewrite Forall_forall in Ht. destruct e as [e n|a b|a b]; cbn [sanity_error] in H.
  - destruct e; try contradiction.
    + destruct H as (i & k & s & Hi & Hin & Hns). destruct (Ht i (nth_error_In _ _ Hi)) as (ty & [Hty _] & Hall). rewrite Forall_forall in Hall. specialize (Hall _ Hin). cbn [snd] in Hall. now rewrite Hall in Hns.
    + destruct H as (i & Hi & Hn). destruct (Ht i (nth_error_In _ _ Hi)) as (ty & Hty & _). exact (Hn ty Hty).
    + destruct H as (i & s & Hi & Hin & Hty' & Hg & Hne). destruct (Ht i (nth_error_In _ _ Hi)) as (ty & Hty & Hall). rewrite Forall_forall in Hall. specialize (Hall _ Hin). cbn [snd] in Hall.
      apply hash_ty0_iff in Hty. apply hash_ty0_iff in Hty'. congruence.
  - destruct H as (-> & -> & Hne). unfold one_map_per_input, blen in *. lia.
  - contradiction.
Qed.
Lemma sanity_ok_iff p : sanity_check p = Ok tt <-> one_map_per_input p /\ Forall signatures_typed (p0_inputs p).
Proof.
  pose proof (sanity_spec p) as H. split; [intros E; now rewrite E in H|]. intros Hs. destruct (sanity_check p) as [[]|e|]; [reflexivity| |contradiction].
  now apply sanity_error_bad in H.
Qed.

Definition has_final (i : input0) : Prop := i0_final_script_sig i <> None \/ i0_final_script_witness i <> None.
Lemma extract_inputs_spec : forall l is k, Forall (fun i => ti_script_sig i = [] /\ ti_witness i = []) l -> length l = length is ->
  match extract_inputs (N.of_nat k) l is with
  | Ok r => r = fill_inputs l is /\ Forall has_final is
  | Err e => exists j i, e = M0Input J0MissingWitness (N.of_nat (k + j)) /\ nth_error is j = Some i /\ i0_final_script_sig i = None /\ i0_final_script_witness i = None
  | Panic => False
  end.
Proof.
  induction l as [|t l IH]; intros [|i is] k Hu Hl; try discriminate; cbn [extract_inputs fill_inputs]; [split; [reflexivity|constructor]|].
  destruct (Forall_inv Hu) as [Hs Hw]. apply Forall_inv_tail in Hu. injection Hl as Hl. replace (N.of_nat k + 1) with (N.of_nat (Datatypes.S k)) by lia.
  destruct (i0_final_script_sig i) as [ss|] eqn:Es, (i0_final_script_witness i) as [w|] eqn:Ew; unfold is_none; cbn [is_some negb andb fail_if bind].
  4:{ exists 0%nat, i. split; [rewrite Nat.add_0_r; reflexivity|]. auto. }
  all: specialize (IH is (Datatypes.S k) Hu Hl); destruct (extract_inputs _ l is) as [r|e|]; cbn [bind]; auto;
    [destruct IH as [-> Hf]; split; [cbn [opt_default]; rewrite ?Hs, ?Hw; reflexivity|constructor; [unfold has_final; rewrite Es, Ew; (left; discriminate) || (right; discriminate)|assumption]]
    |destruct IH as (j & i' & -> & H1); exists (Datatypes.S j), i'; split; [do 2 f_equal; lia|exact H1]].
Qed.
Definition final_wit (i : input0) : witness := match i0_final_script_witness i with Some w => w | None => [] end.
Definition final_sig (i : input0) : bytes := match i0_final_script_sig i with Some s => s | None => [] end.
Lemma interp_loop_spec `{X : Ext} `{M : MsExt} p us : one_map_per_input p -> spent_outputs p us ->
  forall l k, (forall j, nth_error l j = nth_error (p0_inputs p) (k + j)) ->
  match interpreter_check_loop p us (N.of_nat k) l with
  | Ok _ => forall j i, nth_error l j = Some i -> accepted p (N.of_nat (k + j)) (final_wit i) (final_sig i)
  | Err e => exists n i v, e = M0Input J0Interpreter n /\ nth_error (p0_inputs p) (N.to_nat n) = Some i /\ verdict0 p n (final_wit i) (final_sig i) v /\ v <> IOk
  | Panic => False
  end.
Proof.
  intros Hone Hus. induction l as [|i l IH]; intros k Hk; cbn [interpreter_check_loop]; [intros [|j]; discriminate|].
  assert (Hi : nth_error (p0_inputs p) k = Some i) by (specialize (Hk 0%nat); rewrite Nat.add_0_r in Hk; now symmetry).
  destruct (spend_of p (N.of_nat k) Hone) as [s Hs]. { assert (Q : nth_error (p0_inputs p) k <> None) by congruence. apply nth_error_Some in Q. unfold blen. lia. }
  pose proof (interp_check_spec p (N.of_nat k) s us (final_wit i) (final_sig i) Hs Hus) as Hc.
  change (opt_default [] (i0_final_script_witness i)) with (final_wit i). change (opt_default [] (i0_final_script_sig i)) with (final_sig i).
  destruct (interpreter_inp_check _ _ _ _ _) as [[]|e|]; cbn [bind]; [| |contradiction].
  - replace (N.of_nat k + 1) with (N.of_nat (Datatypes.S k)) by lia. specialize (IH (Datatypes.S k)).
    assert (Hk' : forall j, nth_error l j = nth_error (p0_inputs p) (Datatypes.S k + j)).
    { intros j. specialize (Hk (Datatypes.S j)). cbn [nth_error] in Hk. rewrite Hk. f_equal. lia. }
    specialize (IH Hk'). destruct (interpreter_check_loop _ _ _ l) as [[]|e|]; auto. intros [|j] i' Hj; cbn [nth_error] in Hj.
    + injection Hj as <-. now rewrite Nat.add_0_r.
    + replace (k + Datatypes.S j)%nat with (Datatypes.S k + j)%nat by lia. now apply IH.
  - destruct Hc as (-> & v & H1 & H2). exists (N.of_nat k), i, v. rewrite Nat2N.id. auto.
Qed.
(** Why it fails. *)
Definition extract_error `{X : Ext} `{M : MsExt} (p : psbt0) (e : msferr0) : Prop :=
  sanity_error p e
  \/ (exists n i, e = M0Input J0MissingWitness n /\ nth_error (p0_inputs p) (N.to_nat n) = Some i /\ i0_final_script_sig i = None /\ i0_final_script_witness i = None)
  \/ (exists k, e = M0Input J0MissingUtxo k /\ first_unknown p k)
  \/ (exists n i v, e = M0Input J0Interpreter n /\ nth_error (p0_inputs p) (N.to_nat n) = Some i /\ verdict0 p n (final_wit i) (final_sig i) v /\ v <> IOk).
(** What is checked. *)
Definition checked `{X : Ext} `{M : MsExt} (p : psbt0) : Prop :=
  one_map_per_input p /\ Forall signatures_typed (p0_inputs p) /\ Forall has_final (p0_inputs p)
  /\ (exists us, spent_outputs p us)
  /\ forall n i, nth_error (p0_inputs p) (N.to_nat n) = Some i -> accepted p n (final_wit i) (final_sig i).

Lemma extract_checked_spec `{X : Ext} `{M : MsExt} p : unsigned (p0_unsigned_tx p) ->
  match extract_checked p with
  | Ok t => checked p /\ t = extract0_unchecked p
  | Err e => extract_error p e
  | Panic => one_map_per_input p /\ Exists vout_out_of_bounds (spends p)
  end.
Proof.
  intros Hu. unfold extract_checked. pose proof (sanity_spec p) as Hs. destruct (sanity_check p) as [[]|e|]; cbn [bind]; [|now left|contradiction]. destruct Hs as [Hone Ht]. cbv zeta.
  pose proof (extract_inputs_spec (tx_input (p0_unsigned_tx p)) (p0_inputs p) 0 Hu (eq_sym Hone)) as He. cbn [N.of_nat] in He.
  destruct (extract_inputs 0 _ _) as [r|e|]; cbn [bind]; [| |contradiction].
  2:{ destruct He as (j & i & -> & H). right. left. exists (N.of_nat (0 + j)), i. split; [reflexivity|]. now rewrite Nat2N.id. }
  destruct He as [-> Hf]. unfold interpreter_check0. pose proof (prevouts_spec p Hone) as Hp. destruct (psbt0_prevouts p) as [us|e|]; cbn [bind]; [| |auto].
  - pose proof (interp_loop_spec p us Hone Hp (p0_inputs p) 0 (fun j => eq_refl)) as Hi. cbn [N.of_nat] in Hi. destruct (interpreter_check_loop p us 0 (p0_inputs p)) as [[]|e|]; cbn [bind]; [| |contradiction].
    + split; [|reflexivity]. split; [assumption|]. split; [assumption|]. split; [assumption|]. split; [now exists us|]. intros n i Hn. specialize (Hi _ _ Hn). now rewrite Nat.add_0_l, N2Nat.id in Hi.
    + do 3 right. exact Hi.
  - destruct Hp as (k & Hk & ->). right. right. left. now exists k.
Qed.
Lemma extract_error_not_checked `{X : Ext} `{M : MsExt} p e : extract_error p e -> ~ checked p.
Proof.
  intros He (Hone & Ht & Hf & (us & Hus) & Ha). destruct He as [He|[(n & i & _ & Hi & H1 & H2)|[(k & _ & Hk)|(n & i & v & _ & Hi & Hv & Hne)]]].
  - now apply (sanity_error_bad p e).
  - rewrite Forall_forall in Hf. destruct (Hf i (nth_error_In _ _ Hi)); congruence.
  - now apply (unknown_spent p us k).
  - apply Hne. exact (verdict_fun _ _ _ _ _ _ Hv (Ha n i Hi)).
Qed.

(** The checked extraction succeeds exactly when there is a map for each input, the signatures that
    remain have the sighash type of their input, every input has a final field, and the interpreter
    accepts the final fields for the transaction.  The transaction is the one that the unchecked
    extraction gives. *)
Theorem C92_exact : forall (X : Ext) (M : MsExt) p t, unsigned (p0_unsigned_tx p) ->
  (extract_checked p = Ok t <-> checked p /\ extracted0 p t).
Proof.
  intros X M p t Hu. pose proof (extract_checked_spec p Hu) as H. split.
  - intros E. rewrite E in H. destruct H as [Hc ->]. split; [assumption|apply extract0_spec].
  - intros [Hc Ht]. destruct (extract_checked p) as [t'|e|].
    + destruct H as [_ ->]. f_equal. symmetry. exact (extracted0_unique p t _ (proj1 Hc) Ht (extract0_spec p)).
    + now apply extract_error_not_checked in H.
    + exfalso. destruct Hc as (_ & _ & _ & (us & Hus) & _). destruct H as [_ H]. now apply (oob_spent p us).
Qed.
Print Assumptions C92_exact.
Theorem C92_errors : forall (X : Ext) (M : MsExt) p e, unsigned (p0_unsigned_tx p) -> extract_checked p = Err e -> extract_error p e.
Proof. intros X M p e Hu E. pose proof (extract_checked_spec p Hu) as H. now rewrite E in H. Qed.
Print Assumptions C92_errors.
(** It panics when the input that it cannot look up comes first. *)
Theorem C92_panic : forall (X : Ext) (M : MsExt) p, unsigned (p0_unsigned_tx p) ->
  (extract_checked p = Panic <->
   one_map_per_input p /\ Forall signatures_typed (p0_inputs p) /\ Forall has_final (p0_inputs p)
   /\ exists k s, spend_at p k s /\ vout_out_of_bounds s /\ forall j s', j < k -> spend_at p j s' -> exists u, funds0 s' u).
Proof.
  intros X M p Hu. unfold extract_checked. split.
  - intros E. pose proof (sanity_spec p) as Hs. destruct (sanity_check p) as [[]|e|]; cbn [bind] in E; [|discriminate|contradiction]. destruct Hs as [Hone Ht]. cbv zeta in E.
    pose proof (extract_inputs_spec (tx_input (p0_unsigned_tx p)) (p0_inputs p) 0 Hu (eq_sym Hone)) as He. cbn [N.of_nat] in He.
    destruct (extract_inputs 0 _ _) as [r|e|]; cbn [bind] in E; [|discriminate|contradiction]. destruct He as [-> Hf].
    split; [assumption|]. split; [assumption|]. split; [assumption|]. unfold interpreter_check0 in E. pose proof (prevouts_spec p Hone) as Hp. destruct (psbt0_prevouts p) as [us|e|] eqn:Ep; cbn [bind] in E; [|discriminate|].
    + exfalso. pose proof (interp_loop_spec p us Hone Hp (p0_inputs p) 0 (fun j => eq_refl)) as Hi. cbn [N.of_nat] in Hi. destruct (interpreter_check_loop p us 0 (p0_inputs p)); cbn [bind] in E; [discriminate|discriminate|contradiction].
    + now apply prevouts_panic.
  - intros (Hone & Ht & Hf & k & s & Hs & Ho & Hb). rewrite (proj2 (sanity_ok_iff p)) by auto. cbn [bind]. cbv zeta.
    pose proof (extract_inputs_spec (tx_input (p0_unsigned_tx p)) (p0_inputs p) 0 Hu (eq_sym Hone)) as He. cbn [N.of_nat] in He.
    destruct (extract_inputs 0 _ _) as [r|e|]; cbn [bind]; [| |contradiction].
    2:{ exfalso. destruct He as (j & i & _ & Hj & H1 & H2). rewrite Forall_forall in Hf. destruct (Hf i (nth_error_In _ _ Hj)); congruence. }
    unfold interpreter_check0. pose proof (prevouts_spec p Hone) as Hp. destruct (psbt0_prevouts p) as [us|e|]; cbn [bind]; [| |reflexivity].
    + exfalso. apply (oob_spent p us); [|assumption]. apply Exists_exists. exists s. split; [|assumption]. apply spend_at_in. eauto.
    + exfalso. destruct Hp as (j & [(s' & Hs' & Hn) Hbj] & _). destruct (N.lt_trichotomy j k) as [Hl|[->|Hl]].
      * destruct (Hb j s' Hl Hs') as [u Hfu]. destruct Hn as [Hn1 Hn2], Hfu as [Hfu|(_ & t & Hfu & _)]; congruence.
      * rewrite (spend_at_fun _ _ _ _ Hs Hs') in Ho. destruct Hn as [Hn1 Hn2], Ho as (_ & t & Ho & _). congruence.
      * destruct (Hbj k s Hl Hs) as [u Hfu]. destruct Ho as (Ho1 & t & Ho2 & Ho3), Hfu as [Hfu|(_ & t' & Hfu & Hnth)]; [congruence|].
        assert (Q : nth_error (tx_output t') (N.to_nat (ti_vout (fst s))) <> None) by congruence. apply nth_error_Some in Q. replace t' with t in Q by congruence. lia.
Qed.
Print Assumptions C92_panic.
Example C92_example : unsigned (p0_unsigned_tx fy_done)
  /\ extract_checked fy_done = Err (M0Input J0MissingWitness 0)
  /\ extract_checked (fy_final fy_done) = Ok (extract0_unchecked (fy_final fy_done))
  /\ extract_checked (set_p0_inputs [] fy_done) = Err (M0WrongInputCount 2 0).
Proof. split; [vm_compute; repeat constructor|]. split; [vm_compute; reflexivity|]. split; vm_compute; reflexivity. Qed.

(** ** C28, C71: a finalized PSBT can be extracted *)

Lemma bare_top `{X : Ext} `{M : MsExt} `{NM : !MsNmExt M} p n m : get_descriptor0 p n = Ok (DBare m) -> ms_top_level CBare m = true.
Proof.
  unfold get_descriptor0, new_desc0, ok_or. cbv zeta. intros H.
  destruct (get_scriptpubkey p n) as [spk| |]; cbn [bind] in H; [|discriminate|discriminate].
  destruct (expect (nth_N (p0_inputs p) n)) as [i| |]; cbn [bind] in H; [|discriminate|discriminate].
  repeat match type of H with
  | (if ?b then _ else _) = _ => destruct b eqn:?
  | match ?x with _ => _ end = _ => destruct x eqn:?
  | bind ?r _ = _ => destruct r eqn:?; cbn [bind] in H
  end; try discriminate. injection H as <-. assumption.
Qed.
Lemma app_last_not_nil {A} (l : list A) a : l ++ [a] <> [].
Proof. destruct l; discriminate. Qed.
Lemma built_some `{X : Ext} `{M : MsExt} `{NM : !MsNmExt M} `{ML : !MsNmLaws M NM} mall p n w ss : built mall p n w ss -> w <> [] \/ ss <> [].
Proof.
  unfold built, build_final. intros H.
  destruct (get_scriptpubkey p n) as [x| |]; cbn [bind] in H; [|discriminate|discriminate].
  destruct (expect (nth_N (p0_inputs p) n)) as [x0| |]; cbn [bind] in H; [|discriminate|discriminate].
  destruct (expect (nth_N (tx_input (p0_unsigned_tx p)) n)) as [x1| |]; cbn [bind] in H; [|discriminate|discriminate].
  cbv zeta in H. destruct (is_p2tr x) eqn:Etr.
  - unfold construct_tap_witness0 in H. rewrite Etr in H. cbn [panic_unless bind] in H. left.
    destruct (sat_tap_key _); [cbn [bind] in H; injection H as <- _; discriminate|].
    pose proof (tap_loop0_spec mall (tap_key_map0 (p0_inputs p)) (psbt_input_satisfier (p0_unsigned_tx p) x1 x0) (i0_tap_scripts x0) None) as Hl.
    destruct (tap_loop0 _ _ _ _ _) as [w'|]; cbn [ok_or bind] in H; [|discriminate]. injection H as <- _. destruct Hl as [[Hl|(leaf & _ & Hl)] _]; [discriminate|].
    destruct leaf as [cb [script ver]]. cbn [leaf_witness0] in Hl. destruct (negb (ver =? 192)); [discriminate|]. destruct (ms_parse CTap script); [|discriminate].
    destruct (satisfy0 _ _ _ _); [|discriminate]. injection Hl as <-. destruct l; discriminate.
  - destruct (get_descriptor0 p n) as [x2| |] eqn:Eg; cbn [bind] in H; [|discriminate|discriminate]. unfold ok_or in H. destruct (desc_satisfaction0 mall x2 _) as [[w' ss']|] eqn:Ed; [|discriminate]. injection H as -> ->.
    destruct x2 as [k|k|k|k|m|m|m|m]; cbn [desc_satisfaction0] in Ed;
      match type of Ed with option_map _ ?o = _ => destruct o as [sg|] eqn:Eo; [|discriminate] end; injection Ed as <- <-; cbn [satisfy0] in *.
    + right. apply ms_script_sig_items. discriminate.
    + right. intros E. apply app_eq_nil in E as [E _]. now apply push_slice_not_nil in E.
    + left. discriminate.
    + left. discriminate.
    + left. apply app_last_not_nil.
    + left. apply app_last_not_nil.
    + right. apply ms_script_sig_items. apply app_last_not_nil.
    + right. apply ms_script_sig_items. apply bare_top in Eg as Et.
      unfold satisfy0 in Eo. destruct mall; [exact (ms_bare_items _ _ _ Et Eo)|exact (ms_bare_items_nm _ _ _ Et Eo)].
Qed.
Lemma final_has w ss i i' : final_input0 w ss i i' -> final_wit i' = w /\ final_sig i' = ss.
Proof. intros F. unfold final_wit, final_sig. rewrite (fi0_script_sig _ _ _ _ F), (fi0_witness _ _ _ _ F). destruct w, ss; auto. Qed.
Lemma final_typed w ss i i' : final_input0 w ss i i' -> signatures_typed i'.
Proof.
  intros F. destruct (fi0_ecdsa _ _ _ _ F) as (H1 & H2 & _). exists 1. split; [|rewrite H1; constructor]. split; [now left|]. right. auto.
Qed.
Lemma success_at `{X : Ext} `{M : MsExt} `{NM : !MsNmExt M} mall p q : one_map_per_input p -> all_final mall p q ->
  one_map_per_input q /\ same_funding p q
  /\ forall k i', nth_error (p0_inputs q) k = Some i' -> exists i w ss, nth_error (p0_inputs p) k = Some i /\ built mall (stage p q (N.of_nat k)) (N.of_nat k) w ss
       /\ accepted p (N.of_nat k) w ss /\ final_input0 w ss i i'.
Proof.
  intros Hone Hall. pose proof (all_final_utxos mall p q Hall) as Hu. destruct Hall as (Hq & Hl & Hat).
  assert (Htx : p0_unsigned_tx q = p0_unsigned_tx p) by (rewrite Hq; reflexivity).
  split; [unfold one_map_per_input in *; congruence|]. split; [split; [now symmetry|assumption]|].
  intros k i' Hi'. destruct (nth_error (p0_inputs p) k) as [i|] eqn:Ei.
  - exists i. specialize (Hat (N.of_nat k) i i'). rewrite Nat2N.id in Hat. destruct (Hat Ei Hi') as (w & ss & H). exists w, ss. auto.
  - exfalso. apply nth_error_None in Ei. assert (Q : nth_error (p0_inputs q) k <> None) by congruence. apply nth_error_Some in Q. lia.
Qed.

(** If finalizing reports no error then the result passes all the checks of the extraction, with
    legacy inputs as well, and the transaction carries what was found for each input and is apart
    from that the transaction of the PSBT, for which the interpreter has accepted it. *)
Theorem C28_v0 : forall (X : Ext) (M : MsExt) (NM : MsNmExt M) (ML : MsNmLaws M NM) mall p q,
  one_map_per_input p -> unsigned (p0_unsigned_tx p) -> finalize_any mall p = Ok (q, []) ->
  checked q /\ exists t, extract_checked q = Ok t.
Proof.
  intros X M NM ML mall p q Hone Hun H. apply (C72_v0 X M NM mall p q Hone) in H. destruct (success_at mall p q Hone H) as (Honeq & Hsame & Hat).
  assert (Hc : checked q).
  { split; [assumption|]. split; [|split; [|split]].
    - apply Forall_forall. intros i' Hin. apply In_nth_error in Hin as [k Hk]. destruct (Hat k i' Hk) as (i & w & ss & _ & _ & _ & F). exact (final_typed _ _ _ _ F).
    - apply Forall_forall. intros i' Hin. apply In_nth_error in Hin as [k Hk]. destruct (Hat k i' Hk) as (i & w & ss & _ & Hb & _ & F). apply built_some in Hb.
      unfold has_final. rewrite (fi0_script_sig _ _ _ _ F), (fi0_witness _ _ _ _ F). destruct Hb as [Hb|Hb]; [right; destruct w; [congruence|discriminate]|left; destruct ss; [congruence|discriminate]].
    - destruct (nth_error (p0_inputs q) 0) as [i'|] eqn:E0.
      + destruct (Hat 0%nat i' E0) as (i & w & ss & _ & _ & (_ & _ & us & _ & _ & Hus & _) & _). exists us. now apply (same_spent p q).
      + exists []. apply nth_error_None in E0. unfold spent_outputs, spends. destruct (p0_inputs q); [|cbn [length] in E0; lia]. destruct (tx_input (p0_unsigned_tx q)); constructor.
    - intros n i' Hn. destruct (Hat _ i' Hn) as (i & w & ss & _ & _ & Ha & F). rewrite N2Nat.id in Ha. destruct (final_has _ _ _ _ F) as [-> ->]. revert Ha. now apply same_verdict. }
  split; [assumption|]. exists (extract0_unchecked q). apply (C92_exact X M q _); [destruct Hsame as [<- _]; assumption|]. split; [assumption|apply extract0_spec].
Qed.
Print Assumptions C28_v0.
Theorem C71_v0 : forall (X : Ext) (M : MsExt) (NM : MsNmExt M) mall p q t,
  one_map_per_input p -> unsigned (p0_unsigned_tx p) -> finalize_any mall p = Ok (q, []) -> extract_checked q = Ok t ->
  strip_signatures t = p0_unsigned_tx p
  /\ forall n ti, nth_error (tx_input t) (N.to_nat n) = Some ti ->
       built mall (stage p q n) n (ti_witness ti) (ti_script_sig ti) /\ accepted p n (ti_witness ti) (ti_script_sig ti).
Proof.
  intros X M NM mall p q t Hone Hun H Ht. apply (C72_v0 X M NM mall p q Hone) in H. destruct (success_at mall p q Hone H) as (Honeq & [Htx _] & Hat).
  assert (Hu : unsigned (p0_unsigned_tx q)) by now rewrite <- Htx. pose proof (extract_checked_spec q Hu) as He. rewrite Ht in He. destruct He as [_ ->].
  split; [rewrite Htx; now apply strip_extract0|]. intros n ti Hti. pose proof (ex0_inputs q _ (extract0_spec q)) as Hx.
  assert (Hlt : (N.to_nat n < length (p0_inputs q))%nat).
  { assert (Q : nth_error (tx_input (extract0_unchecked q)) (N.to_nat n) <> None) by congruence. apply nth_error_Some in Q. rewrite (ex0_count _ _ (extract0_spec q)) in Q. unfold one_map_per_input in Honeq. lia. }
  destruct (nth_error (p0_inputs q) (N.to_nat n)) as [i'|] eqn:Ei; [|apply nth_error_None in Ei; lia].
  destruct (nth_error (tx_input (p0_unsigned_tx q)) (N.to_nat n)) as [ui|] eqn:Eu; [|apply nth_error_None in Eu; unfold one_map_per_input in Honeq; lia].
  destruct (Hx _ ti ui i' Hti Eu Ei) as (_ & _ & _ & Hs & Hw). destruct (Hat _ i' Ei) as (i & w & ss & _ & Hb & Ha & F). rewrite N2Nat.id in Hb, Ha.
  destruct (final_has _ _ _ _ F) as [E1 E2]. unfold final_wit, final_sig in *. rewrite Hs, Hw, E1, E2. auto.
Qed.
Print Assumptions C71_v0.
Example C71_v0_example : finalize_any false fy_done = Ok (fy_final fy_done, []) /\ p0_inputs fy_done <> []
  /\ then_holds (extract_checked (fy_final fy_done)) (fun t => map (fun ti => blen (ti_witness ti)) (tx_input t) = [2; 1]).
Proof. split; [vm_compute; reflexivity|]. split; [vm_compute; discriminate|]. vm_compute. reflexivity. Qed.

(** ** C91: finalizing again *)

Lemma empty_no_signature t ti i : i0_tap_key_sig i = None -> i0_tap_script_sigs i = [] -> i0_partial_sigs i = [] ->
  forall (X : Ext), no_signature (psbt_input_satisfier t ti i).
Proof. intros H1 H2 H3 X. unfold no_signature, psbt_input_satisfier. cbn. rewrite H1, H2, H3. cbn. auto. Qed.
Lemma final_stuck `{X : Ext} `{M : MsExt} `{NM : !MsNmExt M} `{ML : !MsNmLaws M NM} mall p n s w ss i :
  spend_at p n s -> final_input0 w ss i (snd s) -> ~ vout_out_of_bounds s -> exists e, not_built mall p n e.
Proof.
  intros Hs F Ho. unfold not_built. destruct (build_final mall p n) as [[w' ss']|e|] eqn:Eb.
  3:{ exfalso. apply Ho. now apply (build_final_panic mall p n s). }
  2:{ now exists e. }
  exfalso. pose proof (get_utxo_spec p n s Hs) as Hu. destruct (get_utxo p n) as [u|e|] eqn:Eu.
  2,3: unfold build_final, get_scriptpubkey in Eb; rewrite Eu in Eb; discriminate.
  rewrite (build_known mall p n s u Hs) in Eb by assumption. unfold final0 in Eb. cbv zeta in Eb.
  destruct (fi0_ecdsa _ _ _ _ F) as (F1 & F2 & F3 & F4 & F5), (fi0_tap _ _ _ _ F) as (T1 & T2 & T3 & _).
  pose proof (empty_no_signature (p0_unsigned_tx p) (fst s) (snd s) T1 T2 F1 X) as Hno.
  destruct (is_p2tr (to_script u)) eqn:Etr.
  - unfold construct_tap_witness0 in Eb. rewrite Etr, T3 in Eb. cbn [panic_unless bind tap_loop0] in Eb. rewrite (proj1 Hno) in Eb. discriminate.
  - destruct (get_descriptor0 p n) as [d| |] eqn:Ed; cbn [bind] in Eb; [|discriminate|discriminate].
    pose proof (spk_known p n s u Hs Hu) as Hspk. pose proof (map_known p n s Hs) as Hmap. pose proof Ed as Ed'.
    unfold get_descriptor0 in Ed'. rewrite Hspk, Hmap in Ed'. cbn [bind expect] in Ed'. rewrite F1, F3, F4 in Ed'. unfold find_wpkh0 in Ed'. rewrite ?F1 in Ed'. cbn [find is_some] in Ed'.
    destruct (is_p2pk (to_script u)).
    + destruct (de_pubkey _) as [k| |]; try discriminate. injection Ed' as <-. cbn [desc_satisfaction0] in Eb. destruct Hno as (_ & _ & _ & He & _). rewrite He in Eb. discriminate.
    + destruct (is_p2pkh _); [discriminate|]. destruct (is_p2wpkh _); [discriminate|]. destruct (is_p2wsh _); [discriminate|]. destruct (is_p2sh _); [discriminate|].
      unfold new_desc0, ok_or in Ed'. destruct (ms_parse CBare _) as [m|]; cbn [bind] in Ed'; [|discriminate]. destruct (ms_top_level CBare _) eqn:Et; [|discriminate]. injection Ed' as <-.
      cbn [desc_satisfaction0] in Eb. set (st := psbt_input_satisfier (p0_unsigned_tx p) (fst s) (snd s)) in *. set (m' := ms_substitute _ m) in *.
      pose proof (ms_bare_signed m' st Et Hno) as Hb. unfold satisfy0 in Eb. destruct mall.
      * rewrite Hb in Eb. discriminate.
      * destruct (ms_satisfy_nm CBare m' st) as [x|] eqn:Ex; [|discriminate]. apply ms_nm_found in Ex as [y Ey]. congruence.
Qed.

(** An input that has been finalized is not changed when the PSBT is finalized again; that it cannot
    be finalized is reported as an error. *)
Theorem C91_inputs : forall (X : Ext) (M : MsExt) (NM : MsNmExt M) (ML : MsNmLaws M NM) mall p q errs n w ss i i',
  one_map_per_input p -> finalize_any mall p = Ok (q, errs) ->
  nth_error (p0_inputs p) (N.to_nat n) = Some i' -> final_input0 w ss i i' ->
  nth_error (p0_inputs q) (N.to_nat n) = Some i' /\ exists e, In (M0Input e n) errs.
Proof.
  intros X M NM ML mall p q errs n w ss i i' Hone H Hi' F. pose proof (result_utxos mall p q errs Hone H) as Hu.
  destruct (C52_v0_result X M NM mall p q errs Hone H) as (Hq & Hl & Hat & l & He & _ & Hin).
  assert (Hn : n < blen (p0_inputs p)). { assert (Q : nth_error (p0_inputs p) (N.to_nat n) <> None) by congruence. apply nth_error_Some in Q. unfold blen. lia. }
  assert (Hnb : forall k, nth_error (p0_inputs (stage p q k)) (N.to_nat k) = nth_error (p0_inputs p) (N.to_nat k)).
  { intros k. unfold stage. cbn [p0_inputs set_p0_inputs]. destruct (Nat.le_gt_cases (length (p0_inputs p)) (N.to_nat k)) as [Hk|Hk].
    - rewrite (proj2 (nth_error_None (p0_inputs p) _)) by lia. apply nth_error_None. rewrite app_length, firstn_length, skipn_length. lia.
    - rewrite nth_error_app2 by (rewrite firstn_length; lia). rewrite firstn_length, Nat.min_l, Nat.sub_diag by lia.
      destruct (nth_error (p0_inputs p) (N.to_nat k)) as [x|] eqn:Ex; [|apply nth_error_None in Ex; lia]. rewrite (skipn_nth _ _ _ Ex). reflexivity. }
  pose proof (stage_funding p q n Hq Hu) as Hsame.
  assert (Hone' : one_map_per_input (stage p q n)). { destruct Hsame as [Htx Hf]. unfold one_map_per_input in *. rewrite <- Htx. apply F2_length in Hf. congruence. }
  destruct (spend_of (stage p q n) n Hone') as [s Hs]. { destruct Hsame as [_ Hf]. apply F2_length in Hf. unfold blen in *. lia. }
  assert (Hsi : snd s = i'). { destruct s as [t j]. apply spend_at_iff in Hs as [_ Hj]. rewrite Hnb in Hj. cbn [snd]. congruence. }
  assert (Ho : ~ vout_out_of_bounds s).
  { intros O. assert (Q : finalize_any mall p = Panic); [|congruence]. apply (C48_finalize_panic_iff X M NM mall p Hone). apply (same_oob (stage p q n) p); [now apply same_funding_sym|].
    apply Exists_exists. exists s. split; [|assumption]. apply spend_at_in. eauto. }
  rewrite <- Hsi in F. destruct (final_stuck mall _ n s w ss i Hs F Ho) as [e Hnot].
  destruct (nth_error (p0_inputs q) (N.to_nat n)) as [j|] eqn:Ej; [|apply nth_error_None in Ej; unfold blen in Hn; lia].
  destruct (Hat n i' j Hi' Ej) as [(w' & ss' & Hb & _)|[-> _]]; [exfalso; unfold built, not_built in *; congruence|].
  split; [reflexivity|]. exists e. rewrite He. change (M0Input e n) with (snd (n, M0Input e n)). apply in_map. apply Hin. split; [assumption|now apply F0Build].
Qed.
Print Assumptions C91_inputs.
(** After finalizing with success nothing changes any more, and every input is reported, in order. *)
Theorem C91_again : forall (X : Ext) (M : MsExt) (NM : MsNmExt M) (ML : MsNmLaws M NM) mall mall' p q,
  one_map_per_input p -> finalize_any mall p = Ok (q, []) ->
  exists errs, finalize_any mall' q = Ok (q, errs)
    /\ Forall2 (fun n e => exists e', e = M0Input e' n) (map N.of_nat (seq 0 (length (p0_inputs p)))) errs.
Proof.
  intros X M NM ML mall mall' p q Hone H. apply (C72_v0 X M NM mall p q Hone) in H. destruct (success_at mall p q Hone H) as (Honeq & Hsame & Hat).
  assert (Hl : length (p0_inputs q) = length (p0_inputs p)) by apply H.
  pose proof (finalize_any_steps mall' q Honeq) as Hst. destruct (finalize_any mall' q) as [[q' errs]|[]|] eqn:E.
  - destruct Hst as (r & l & Hst & -> & ->). exists (map snd l).
    assert (G : forall done rest r l, steps mall' q done rest r l -> (exists pre, length done = length pre /\ p0_inputs q = pre ++ rest) -> done = firstn (length done) (p0_inputs q) ->
       r = rest /\ Forall2 (fun n e => exists e', e = M0Input e' n) (map N.of_nat (seq (length done) (length rest))) (map snd l)).
    { clear Hst r l E. induction 1 as [d|d i a w ss b c Hb Ha Hst IH|d i a e b c Hf Hst IH]; intros (pre & Hlp & Hpre) Hd.
      - split; [reflexivity|constructor].
      - exfalso. assert (Hi : nth_error (p0_inputs q) (length d) = Some i) by (rewrite Hpre, Hlp, nth_error_app2, Nat.sub_diag by lia; reflexivity).
        destruct (Hat _ i Hi) as (j & w' & ss' & _ & _ & _ & F).
        assert (Hcur : set_p0_inputs (d ++ i :: a) q = q).
        { rewrite Hd, Hpre, Hlp, firstn_app, Nat.sub_diag, firstn_all, firstn_O, app_nil_r, <- Hpre. apply set_p0_inputs_same. }
        rewrite Hcur in Hb. destruct (spend_of q (blen d) Honeq) as [s Hs]. { assert (Q : nth_error (p0_inputs q) (length d) <> None) by congruence. apply nth_error_Some in Q. unfold blen. lia. }
        assert (Hsi : snd s = i). { destruct s as [t i0]. apply spend_at_iff in Hs as [_ Hj]. unfold blen in Hj. rewrite Nat2N.id in Hj. cbn [snd]. congruence. }
        rewrite <- Hsi in F. destruct (final_stuck mall' q (blen d) s w' ss' j Hs F) as [e He]; [now apply (built_in_bounds mall' q (blen d) w ss)|]. unfold built, not_built in *. congruence.
      - assert (Hi : nth_error (p0_inputs q) (length d) = Some i) by (rewrite Hpre, Hlp, nth_error_app2, Nat.sub_diag by lia; reflexivity).
        destruct (Hat _ i Hi) as (j & w' & ss' & _ & _ & _ & F).
        assert (Hcur : set_p0_inputs (d ++ i :: a) q = q).
        { rewrite Hd, Hpre, Hlp, firstn_app, Nat.sub_diag, firstn_all, firstn_O, app_nil_r, <- Hpre. apply set_p0_inputs_same. }
        rewrite Hcur in Hf. destruct (spend_of q (blen d) Honeq) as [s Hs]. { assert (Q : nth_error (p0_inputs q) (length d) <> None) by congruence. apply nth_error_Some in Q. unfold blen. lia. }
        assert (Hsi : snd s = i). { destruct s as [t i0]. apply spend_at_iff in Hs as [_ Hj]. unfold blen in Hj. rewrite Nat2N.id in Hj. cbn [snd]. congruence. }
        rewrite <- Hsi in F. destruct (final_stuck mall' q (blen d) s w' ss' j Hs F) as [e' He]; [now apply (fails_in_bounds mall' q (blen d) e)|].
        assert (Ee : e = M0Input e' (blen d)) by (apply (fails_fun mall' q (blen d)); [assumption|now apply F0Build]).
        destruct IH as [-> IH].
        + exists (pre ++ [i]). rewrite !app_length, Hlp, Hpre, <- app_assoc. auto.
        + rewrite app_length. cbn [length]. replace (length d + 1)%nat with (Datatypes.S (length d)) by lia. rewrite Hd at 1. rewrite Hpre, Hlp.
          rewrite firstn_app, Nat.sub_diag, firstn_all, firstn_O, app_nil_r. replace (Datatypes.S (length pre)) with (length (pre ++ [i])) by (rewrite app_length; cbn; lia).
          replace (pre ++ i :: a) with ((pre ++ [i]) ++ a) by now rewrite <- app_assoc. rewrite firstn_app, Nat.sub_diag, firstn_all, firstn_O, app_nil_r. reflexivity.
        + split; [reflexivity|]. cbn [length map snd seq]. constructor; [eauto|]. rewrite app_length in IH. cbn [length] in IH. replace (length d + 1)%nat with (Datatypes.S (length d)) in IH by lia. exact IH. }
    destruct (G [] (p0_inputs q) r l Hst) as [-> G']; [now exists []|reflexivity|]. rewrite set_p0_inputs_same. split; [reflexivity|]. rewrite <- Hl. exact G'.
  - exfalso. apply (same_oob q p) in Hst; [|now apply same_funding_sym]. apply Exists_exists in Hst as ([t i] & Hin & Ho). apply spend_at_in in Hin as (n & Hs).
    apply spend_at_lt in Hs as Hn. destruct (nth_error (p0_inputs q) (N.to_nat n)) as [i'|] eqn:Ei; [|apply nth_error_None in Ei; unfold blen in *; lia].
    destruct (Hat _ i' Ei) as (j & w & ss & _ & _ & (_ & _ & us & _ & _ & Hus & _) & _). apply (oob_spent p us); [|assumption]. apply Exists_exists. exists (t, i). split; [|assumption]. apply spend_at_in. eauto.
Qed.
Print Assumptions C91_again.
Example C91_example : finalize_any false fy_done = Ok (fy_final fy_done, []) /\ length (p0_inputs fy_done) = 2%nat
  /\ finalize_any true (fy_final fy_done) = Ok (fy_final fy_done, [M0Input J0MissingPubkey 0; M0Input J0CouldNotSatisfyTr 1]).
Proof. split; [vm_compute; reflexivity|]. split; vm_compute; reflexivity. Qed.

(** ** C93: the older functions of the module [finalizer] *)

Lemma until_of_steps `{X : Ext} `{M : MsExt} `{NM : !MsNmExt M} mall p : forall done r r' l, steps mall p done r r' l ->
  length (done ++ r) = length (tx_input (p0_unsigned_tx p)) ->
  finalize_until mall (map N.of_nat (seq (length done) (length r))) (set_p0_inputs (done ++ r) p) =
  match l with
  | [] => Ok (set_p0_inputs (done ++ r') p, None)
  | (n, e) :: _ => let k := (N.to_nat n - length done)%nat in Ok (set_p0_inputs (done ++ firstn k r' ++ skipn k r) p, Some e)
  end.
Proof.
  induction 1 as [d|d i a w ss b c Hb Ha Hst IH|d i a e b c Hf Hst IH]; intros Hl.
  - cbn [length seq map finalize_until]. now rewrite app_nil_r.
  - cbn [length]. rewrite seq_of. cbn [finalize_until]. set (q := set_p0_inputs (d ++ i :: a) p) in *.
    assert (Hone : one_map_per_input q) by exact Hl.
    destruct (spend_of q (blen d) Hone) as [[t i'] Hs]. { unfold q. cbn [p0_inputs set_p0_inputs]. unfold blen. rewrite app_length. cbn. lia. }
    assert (i' = i).
    { apply spend_at_iff in Hs as [_ Hs]. unfold q, blen in Hs. rewrite Nat2N.id in Hs. cbn [p0_inputs set_p0_inputs] in Hs. rewrite nth_error_app2, Nat.sub_diag in Hs by lia. now injection Hs. }
    subst i'. pose proof (finalize_input0_spec mall q (blen d) _ Hone Hs) as H. destruct (finalize_input0 mall q (blen d)) as [p'|e|].
    + destruct H as (w' & ss' & Hb' & _ & ->). unfold built in *. rewrite Hb in Hb'. injection Hb' as <- <-. cbn [snd] in *. set (i' := finalized_input0 i w ss) in *.
      assert (Eq : set_p0_inputs (set_nth (N.to_nat (blen d)) i' (p0_inputs q)) q = set_p0_inputs ((d ++ [i']) ++ a) p).
      { unfold q, blen. rewrite Nat2N.id, set_p0_inputs_twice. cbn [p0_inputs set_p0_inputs]. rewrite set_nth_app, <- app_assoc. reflexivity. }
      rewrite Eq. assert (El : length (d ++ [i']) = Datatypes.S (length d)) by (rewrite app_length; cbn; lia). rewrite El in IH. rewrite IH by (rewrite <- Hl, !app_length; cbn; lia).
      pose proof (steps_sorted _ _ _ _ _ _ Hst) as [_ Hlo]. destruct c as [|[n e] c]; [now rewrite <- app_assoc|]. cbv zeta.
      apply Forall_inv in Hlo. cbn [fst] in Hlo. unfold blen in Hlo. rewrite El in Hlo. replace (N.to_nat n - length d)%nat with (Datatypes.S (N.to_nat n - Datatypes.S (length d))) by lia.
      cbn [firstn skipn]. now rewrite <- app_assoc.
    + exfalso. apply (fails_not_done _ _ _ _ H). exists w, ss. auto.
    + exfalso. destruct Ha as (_ & _ & us & _ & _ & Hus & _). now apply (oob_spent q us).
  - cbn [length]. rewrite seq_of. cbn [finalize_until]. set (q := set_p0_inputs (d ++ i :: a) p) in *.
    assert (Hone : one_map_per_input q) by exact Hl.
    destruct (spend_of q (blen d) Hone) as [s Hs]. { unfold q. cbn [p0_inputs set_p0_inputs]. unfold blen. rewrite app_length. cbn. lia. }
    cbv zeta. assert (E0 : (N.to_nat (blen d) - length d)%nat = 0%nat) by (unfold blen; lia). rewrite E0. cbn [firstn skipn app]. fold q.
    pose proof (finalize_input0_spec mall q (blen d) _ Hone Hs) as H. destruct (finalize_input0 mall q (blen d)) as [p'|e'|] eqn:Ef.
    + destruct H as (w' & ss' & Hb' & Ha' & _). exfalso. apply (fails_not_done _ _ _ _ Hf). exists w', ss'. auto.
    + now rewrite (fails_fun _ _ _ _ _ H Hf).
    + exfalso. unfold finalize_input0, finalize_input_helper in Ef. destruct Hf as [e Hnb|w ss k Hbu Hk|w ss v Hbu Hv Hne].
      * unfold not_built in Hnb. rewrite Hnb in Ef. discriminate.
      * unfold built in Hbu. rewrite Hbu in Ef. cbn [map_err bind] in Ef. pose proof (prevouts_spec q Hone) as Hp. destruct (psbt0_prevouts q) as [us|e|] eqn:Ep; cbn [bind] in Ef; [|discriminate|].
        -- now apply (unknown_spent q us k).
        -- apply prevouts_panic in Ep as (j & s1 & Hs1 & Ho1 & Hb1); [|assumption]. destruct Hk as [(s2 & Hs2 & Hn2) Hb2]. destruct (N.lt_trichotomy j k) as [Hlt|[->|Hlt]].
           ++ destruct (Hb2 j s1 Hlt Hs1) as [u Hfu]. destruct Ho1 as (Ho1 & t & Ho2 & Ho3), Hfu as [Hfu|(_ & t' & Hfu & Hnth)]; [congruence|].
              assert (Q : nth_error (tx_output t') (N.to_nat (ti_vout (fst s1))) <> None) by congruence. apply nth_error_Some in Q. replace t' with t in Q by congruence. lia.
           ++ rewrite (spend_at_fun _ _ _ _ Hs1 Hs2) in Ho1. destruct Hn2 as [Hn1 Hn2], Ho1 as (_ & t & Ho & _). congruence.
           ++ destruct (Hb1 k s2 Hlt Hs2) as [u Hfu]. destruct Hn2 as [Hn1 Hn2], Hfu as [Hfu|(_ & t & Hfu & _)]; congruence.
      * destruct Hv as (_ & _ & us & _ & _ & Hus & _). now apply (oob_spent q us).
Qed.

(** If the types of the signatures are those of their inputs then they stop at the first error that
    [finalize_mut] reports: the inputs before it are finalized, the others are not touched. *)
Theorem C93_agrees_partial : forall (X : Ext) (M : MsExt) (NM : MsNmExt M) mall p q errs,
  one_map_per_input p -> Forall signatures_typed (p0_inputs p) -> finalize_any mall p = Ok (q, errs) ->
  match errs with
  | [] => finalize_helper mall p = Ok (q, None)
  | e :: _ => exists n, finalize_helper mall p = Ok (stage p q n, Some e) /\ n < blen (p0_inputs p) /\ fails0 mall (stage p q n) n e
                /\ forall m e', m < n -> ~ fails0 mall (stage p q m) m e'
  end.
Proof.
  intros X M NM mall p q errs Hone Ht H.
  pose proof (finalize_any_steps mall p Hone) as Hst. rewrite H in Hst. destruct Hst as (r & l & Hst & Hq & He).
  unfold finalize_helper. rewrite (proj2 (sanity_ok_iff p)) by auto.
  pose proof (until_of_steps mall p [] (p0_inputs p) r l Hst Hone) as Hu. cbn [app length] in Hu. rewrite set_p0_inputs_same in Hu. fold (input_indices0 p) in Hu.
  unfold input_indices0 in *. rewrite Hu. clear Hu. destruct l as [|[n e] l]; subst errs; cbn [map snd] in *; [now rewrite Hq|].
  exists n. cbv zeta. rewrite Nat.sub_0_r. split; [now rewrite Hq|].
  pose proof (steps_sorted _ _ _ _ _ _ Hst) as [Hso Hlo]. apply Forall_inv in Hlo as Hn. cbn [fst map] in Hn, Hso. unfold blen at 1 2 in Hn. cbn [length] in Hn.
  assert (Hat : forall m, m < blen (p0_inputs p) -> forall e', fails0 mall (stage p q m) m e' -> In (m, e') ((n, e) :: l)).
  { intros m Hm e' Hf. destruct (nth_error (p0_inputs p) (N.to_nat m)) as [i|] eqn:Ei; [|apply nth_error_None in Ei; unfold blen in Hm; lia].
    pose proof (steps_length _ _ _ _ _ _ Hst) as Hlr. destruct (nth_error r (N.to_nat m)) as [i'|] eqn:Er; [|apply nth_error_None in Er; unfold blen in Hm; lia].
    pose proof (steps_at _ _ _ _ _ _ Hst _ _ _ Ei Er) as A. cbv zeta in A. cbn [length app Nat.add] in A. rewrite N2Nat.id in A. fold (p0_inputs q) in A.
    assert (Es : set_p0_inputs (firstn (N.to_nat m) r ++ skipn (N.to_nat m) (p0_inputs p)) p = stage p q m) by (unfold stage; rewrite Hq; reflexivity). rewrite Es in A.
    destruct A as [(w & ss & Hb & Ha & _)|(_ & e2 & Hf2 & Hin & _)].
    - exfalso. apply (fails_not_done _ _ _ _ Hf). exists w, ss. auto.
    - now rewrite (fails_fun _ _ _ _ _ Hf Hf2). }
  split; [lia|]. split.
  - destruct (nth_error (p0_inputs p) (N.to_nat n)) as [i|] eqn:Ei; [|apply nth_error_None in Ei; unfold blen in *; lia].
    pose proof (steps_length _ _ _ _ _ _ Hst) as Hlr. destruct (nth_error r (N.to_nat n)) as [i'|] eqn:Er; [|apply nth_error_None in Er; unfold blen in *; lia].
    pose proof (steps_at _ _ _ _ _ _ Hst _ _ _ Ei Er) as A. cbv zeta in A. cbn [length app Nat.add] in A. rewrite N2Nat.id in A.
    assert (Es : set_p0_inputs (firstn (N.to_nat n) r ++ skipn (N.to_nat n) (p0_inputs p)) p = stage p q n) by (unfold stage; rewrite Hq; reflexivity). rewrite Es in A.
    destruct A as [(w & ss & _ & _ & _ & Hno)|(_ & e2 & Hf2 & _ & Hun)]; [exfalso; apply (Hno e); now left|]. now rewrite (Hun e (or_introl eq_refl)).
  - intros m e' Hm Hf. specialize (Hat m ltac:(lia) e' Hf). destruct Hat as [[= -> _]|Hat]; [lia|].
    apply StronglySorted_inv in Hso as [_ Hso]. rewrite Forall_forall in Hso. specialize (Hso m (in_map fst _ _ Hat)). lia.
Qed.
Print Assumptions C93_agrees_partial.
(** Otherwise they fail at once. *)
Theorem C93_rejects : forall (X : Ext) (M : MsExt) (NM : MsNmExt M) mall p,
  ~ (one_map_per_input p /\ Forall signatures_typed (p0_inputs p)) -> exists e, finalize_helper mall p = Ok (p, Some e) /\ sanity_error p e.
Proof.
  intros X M NM mall p Hno. pose proof (sanity_spec p) as H. unfold finalize_helper. destruct (sanity_check p) as [[]|e|]; [now apply Hno in H|eauto|contradiction].
Qed.
Print Assumptions C93_rejects.
(** A taproot input that asks for SIGHASH_DEFAULT: it can be signed and finalized, but not with the
    older functions. *)
Definition fy_default : psbt0 := fy_sign (ex0_of [set_i0_sighash_type (Some 0) ex0_tr]).
Theorem C93_refuted : exists (X : Ext) (M : MsExt) (NM : MsNmExt M) p q,
  MsNmLaws M NM /\ wf_psbt0 p /\ finalize_mut p = Ok (q, []) /\ q <> p
  /\ finalize_helper false p = Ok (p, Some (M0Input J0NonStandardSighashType 0)).
Proof.
  exists toy, toy_ms0, toy_nm, fy_default, (fy_final fy_default). split; [exact toy_nm_laws|]. split; [apply ex0_wf; vm_compute; reflexivity|].
  split; [vm_compute; reflexivity|]. split; [|vm_compute; reflexivity]. intros E. apply (f_equal (fun p => map i0_tap_key_sig (p0_inputs p))) in E. vm_compute in E. discriminate.
Qed.
Print Assumptions C93_refuted.
Definition fy_half : psbt0 := set_p0_inputs [nth 0 (p0_inputs fy_done) input0_default; ex0_tr] fy_done.
Lemma typed_check p : sanity_check p = Ok tt -> Forall signatures_typed (p0_inputs p).
Proof. intros H. now apply sanity_ok_iff in H. Qed.
Example C93_example : Forall signatures_typed (p0_inputs fy_done) /\ finalize_helper false fy_done = Ok (fy_final fy_done, None)
  /\ Forall signatures_typed (p0_inputs fy_half) /\ fy_final fy_half <> fy_half
  /\ finalize_helper false fy_half = Ok (fy_final fy_half, Some (M0Input J0CouldNotSatisfyTr 1)).
Proof.
  split; [apply typed_check; vm_compute; reflexivity|]. split; [vm_compute; reflexivity|]. split; [apply typed_check; vm_compute; reflexivity|].
  split; [|vm_compute; reflexivity]. intros E. apply (f_equal (fun p => map i0_partial_sigs (p0_inputs p))) in E. vm_compute in E. discriminate.
Qed.

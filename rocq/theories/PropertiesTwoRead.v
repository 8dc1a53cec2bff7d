(** C145: version 0 and version 2 read the pairs that both have alike. *)
From Verif Require Import Base OMap Consensus ConsensusFacts Ext ExtInstance Raw RawFacts TapTree SpecCodec Serialize SerializeFacts MapCodec
  V2Global V2Input V2Output V2Psbt V0Error V0Input V0Output V0Psbt SpecPsbt MapFacts V2OutputFacts V2InputFacts V2GlobalFacts V2CodecFacts V2PsbtFacts V0PsbtFacts SpecTwoVersions SpecTwoCombine SpecTwoRead SampleV2.
Local Open Scope N_scope.

(** Used by the examples only; the theorems bind their own. *)
#[local] Existing Instance toy | 100.
#[local] Instance ex_cfg : Cfg | 100 := cfg_of true false.

Lemma alike {A B E} (view : A -> B) (r : res E A) (r0 : res E B) :
  r <> Panic -> r0 = match r with Ok a => Ok (view a) | Err e => Err e | Panic => Panic end -> read_alike view r r0.
Proof. intros H ->. destruct r; [reflexivity|reflexivity|congruence]. Qed.
Ltac excluded H E := apply beq_eq in E; exfalso; apply H; rewrite E; cbn [In]; tauto.
Ltac field := match goal with |- bind ?a _ = match bind ?b _ with _ => _ end => change b with a; destruct a; reflexivity end.

(** A pair that both versions know is read alike: into the same field, or refused with the same error. *)
Theorem C145_read_input : forall (X : Ext) (L : ExtLaws X) (C : Cfg) pr i,
  read_by_both [x0e; x0f; x10; x11; x12] [x1d; x1e] pr ->
  read_alike v0_input (input_insert_pair pr i) (input0_insert_pair pr (v0_input i)).
Proof.
  intros X L C pr i [H1 H2]. apply alike; [exact (frame_np _ _ _ _ _ _ iframe _ _ _ _ ispec pr i)|].
  unfold input_insert_pair, input0_insert_pair, input0_excluded. cbv zeta.
  destruct (beq _ x0e) eqn:E; [excluded H1 E|clear E]. destruct (beq _ x0f) eqn:E; [excluded H1 E|clear E].
  destruct (beq _ x10) eqn:E; [excluded H1 E|clear E]. destruct (beq _ x11) eqn:E; [excluded H1 E|clear E].
  destruct (beq _ x12) eqn:E; [excluded H1 E|clear E]. cbn [orb].
  do 19 (match goal with |- (if ?b then _ else _) = _ => destruct b; [field|] end).
  destruct feat_sp eqn:F; cbn [andb].
  - destruct (beq _ x1d) eqn:E; [excluded (H2 eq_refl) E|clear E]. destruct (beq _ x1e) eqn:E; [excluded (H2 eq_refl) E|clear E].
    destruct (beq _ xfc); field.
  - destruct (beq _ xfc); field.
Qed.
Print Assumptions C145_read_input.
Theorem C145_read_output : forall (X : Ext) (L : ExtLaws X) (C : Cfg) pr o,
  read_by_both [x03; x04] [x09; x0a] pr ->
  read_alike v0_output (output_insert_pair pr o) (output0_insert_pair pr (v0_output o)).
Proof.
  intros X L C pr o [H1 H2]. apply alike; [exact (frame_np _ _ _ _ _ _ oframe _ _ _ _ ospec pr o)|].
  unfold output_insert_pair, output0_insert_pair, output0_excluded. cbv zeta.
  destruct (beq _ x03) eqn:E; [excluded H1 E|clear E]. destruct (beq _ x04) eqn:E; [excluded H1 E|clear E]. cbn [orb].
  do 7 (match goal with |- (if ?b then _ else _) = _ => destruct b; [field|] end).
  destruct feat_sp eqn:F; cbn [andb].
  - destruct (beq _ x09) eqn:E; [excluded (H2 eq_refl) E|clear E]. destruct (beq _ x0a) eqn:E; [excluded (H2 eq_refl) E|clear E]. field.
  - field.
Qed.
Print Assumptions C145_read_output.

Lemma xpub_alike `{X : Ext} pr m :
  match gins_xpub pr m, g0ins_xpub pr m with
  | Ok a, Ok b => b = a
  | Err _, Err _ => True
  | Panic, Panic => True
  | _, _ => False
  end.
Proof.
  unfold gins_xpub, g0ins_xpub. destruct (is_empty (k_data (p_key pr))); cbn [negb]; [exact Logic.I|].
  destruct (de_xpub _) as [x|]; cbn [ok_or bind]; [|exact Logic.I]. cbv zeta.
  destruct (is_empty (p_value pr)); cbn [fail_if bind orb]; [exact Logic.I|].
  destruct (blen (p_value pr) <? 4), (blen (p_value pr) mod 4 =? 0); cbn [negb fail_if bind]; try exact Logic.I.
  destruct (m_get sk_xpub x m); [exact Logic.I|reflexivity].
Qed.
Lemma prop_alike pr m :
  match gins_prop pr m, ins_prop IDeser pr m with
  | Ok a, Ok b => b = a
  | Err _, Err _ => True
  | Panic, Panic => True
  | _, _ => False
  end.
Proof.
  unfold gins_prop, ins_prop. destruct (is_empty (k_data (p_key pr))) eqn:E.
  - unfold propkey_try_from. destruct (k_data (p_key pr)); [|discriminate E]. 
    destruct (beq _ _); cbn; exact Logic.I.
  - destruct (propkey_try_from (p_key pr)); cbn [map_err bind]; [|exact Logic.I..].
    destruct (m_mem _ _ _); [exact Logic.I|reflexivity].
Qed.

(** In the global map the errors of the two versions have different names. *)
Theorem C145_read_global : forall (X : Ext) (L : ExtLaws X) (C : Cfg) pr d d0,
  read_by_both [x00; xfb; x02; x03; x04; x05; x06] [x07; x08] pr -> same_globals d d0 ->
  match global_insert_pair pr d, global0_insert_pair pr d0 with
  | Ok d', Ok d0' => same_globals d' d0'
  | Err _, Err _ => True
  | _, _ => False
  end.
Proof.
  intros X L C pr d d0 [H1 H2] (Hx & Hp & Hu).
  pose proof (frame_np _ _ _ _ _ _ gframe _ _ _ _ gspec pr d) as N.
  unfold global_insert_pair, global0_insert_pair, global0_excluded in *. cbv zeta in *.
  destruct (beq _ xfb) eqn:E; [excluded H1 E|clear E]. destruct (beq _ x02) eqn:E; [excluded H1 E|clear E].
  destruct (beq _ x03) eqn:E; [excluded H1 E|clear E]. destruct (beq _ x04) eqn:E; [excluded H1 E|clear E].
  destruct (beq _ x05) eqn:E; [excluded H1 E|clear E]. destruct (beq _ x06) eqn:E; [excluded H1 E|clear E].
  destruct (beq _ x00) eqn:E; [excluded H1 E|clear E]. cbn [orb].
  destruct (beq _ x01).
  { rewrite Hx. pose proof (xpub_alike pr (gd_xpubs d)) as E. destruct (gins_xpub _ _), (g0ins_xpub _ _); cbn [bind] in *; try contradiction; try exact Logic.I.
    subst. repeat split; assumption. }
  destruct (beq _ xfc).
  { rewrite Hp. pose proof (prop_alike pr (gd_proprietaries d)) as E.
    destruct (gins_prop _ _), (ins_prop _ _ _); cbn [bind] in *; try contradiction; try exact Logic.I.
    subst. repeat split; assumption. }
  rewrite Hu. destruct feat_sp eqn:F; cbn [andb] in *.
  - destruct (beq _ x07) eqn:E; [excluded (H2 eq_refl) E|clear E]. destruct (beq _ x08) eqn:E; [excluded (H2 eq_refl) E|clear E].
    destruct (ins_unknown pr (gd_unknowns d)); cbn [bind] in *; [repeat split; assumption|exact Logic.I|now apply N].
  - destruct (ins_unknown pr (gd_unknowns d)); cbn [bind] in *; [repeat split; assumption|exact Logic.I|now apply N].
Qed.
Print Assumptions C145_read_global.

(** A derivation, a second one of the same key, a preimage that does not match, an unknown pair. *)
Example C145_read_example :
  let i := input_new (txid_a, 0) in let d := pr x06 pk_a (le4 9) in
  read_by_both [x0e; x0f; x10; x11; x12] [x1d; x1e] d
  /\ is_ok (input_insert_pair d i) = true /\ is_ok (input0_insert_pair d (v0_input i)) = true
  /\ input_insert_pair d (set_in_bip32_derivations [(pk_a, KeySource (le4 9) [])] i) = Err (IDuplicateKey (Key x06 pk_a))
  /\ is_ok (input_insert_pair (pr x0b (repeat x00 32) [x01]) i) = false
  /\ is_ok (input_insert_pair (pr xf1 [] [x01]) i) = true.
Proof. cbv zeta. split; [split; [cbn; intuition discriminate|intros _; cbn; intuition discriminate]|]. vm_compute. repeat split. Qed.
Example C145_read_global_example :
  same_globals gdec_init gdec0_init /\ read_by_both [x00; xfb; x02; x03; x04; x05; x06] [x07; x08] (pr xf0 [] [x01])
  /\ is_ok (global_insert_pair (pr xf0 [] [x01]) gdec_init) = true.
Proof. split; [repeat split|]. split; [split; [cbn; intuition discriminate|intros _; cbn; intuition discriminate]|]. vm_compute. reflexivity. Qed.

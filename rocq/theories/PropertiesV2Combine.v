(** C35-C40, C57, C58: combining PSBTs (src/v2/mod.rs:79, 675-687). *)
From Verif Require Import Base OMap Consensus ConsensusFacts Ext ExtInstance Raw TapTree Serialize SerializeFacts MapCodec
  V2Global V2Input V2Output V2Psbt SpecCodec SpecPsbt V2CodecFacts V2WireFacts V2Roles SpecRoles V2RolesFacts SpecCombine V2CombineFacts SampleV2.
Local Open Scope N_scope.

Local Notation cfg0 := (cfg_of false false).
(** Used by the examples only; the theorems bind their own. *)
#[local] Existing Instance toy | 100.
#[local] Instance ex_cfg : Cfg | 100 := cfg_of false false.

(** PSBTs with one input and one output and some further pairs, for the examples. *)
Definition cx_bytes (g i o : list pair) : bytes :=
  sample_of ([pr xfb [] (le4 2); pr x02 [] (le4 2); pr x04 [] [x01]; pr x05 [] [x01]] ++ g)
    [[pr x0e [] txid_a; pr x0f [] (le4 1)] ++ i] [[pr x03 [] (le_enc 8 4000); pr x04 [] p2wpkh_a] ++ o].
Definition cx_res (g i o : list pair) : res deserr psbt := @psbt_deserialize toy cfg0 (cx_bytes g i o).
Definition cx (g i o : list pair) : psbt := match cx_res g i o with Ok p => p | _ => empty_psbt end.
Lemma cx_wf g i o : is_ok (cx_res g i o) = true -> @wf_psbt toy cfg0 (cx g i o).
Proof.
  unfold cx. destruct (cx_res g i o) as [p| |] eqn:E; try discriminate. intros _. exact (@deserialize_wf toy toy_laws cfg0 _ _ E).
Qed.
Definition comb (a b : psbt) : psbt := match psbt_combine a b with Ok c => c | _ => empty_psbt end.
Definition first_input (p : psbt) : input := hd input_invalid (p_inputs p).
Definition first_output (p : psbt) : output := hd output_invalid (p_outputs p).

(** Deciding [no_conflict], for the examples. *)
Definition key_bytes (k : key) : bytes := k_type k :: k_data k.
Definition no_conflictb (l l' : list pair) : bool :=
  forallb (fun p => forallb (fun q => negb (bytes_eqb (key_bytes (p_key p)) (key_bytes (p_key q))) || bytes_eqb (p_value p) (p_value q)) l') l.
Lemma no_conflictb_ok l l' : no_conflictb l l' = true -> no_conflict l l'.
Proof.
  intros H p q Hp Hq E. unfold no_conflictb in H. rewrite forallb_forall in H. specialize (H p Hp). rewrite forallb_forall in H.
  specialize (H q Hq). rewrite E, (proj2 (bytes_eqb_eq _ _) eq_refl) in H. now apply bytes_eqb_eq in H.
Qed.
Fixpoint forall2b {A B} (P : A -> B -> bool) (l : list A) (l' : list B) : bool :=
  match l, l' with [], [] => true | a :: r, b :: r' => P a b && forall2b P r r' | _, _ => false end.
Lemma forall2b_ok {A B} (P : A -> B -> bool) (Q : A -> B -> Prop) : (forall a b, P a b = true -> Q a b) ->
  forall l l', forall2b P l l' = true -> Forall2 Q l l'.
Proof.
  intros H. induction l as [|a l IH]; intros [|b l']; cbn; try discriminate; [constructor|]. intros E.
  apply andb_true_iff in E as [E1 E2]. constructor; auto.
Qed.

(** Some pairs: an unknown pair, an xpub, utxos, preimages. *)
Definition xpub_bytes : bytes := [x04; x88; xb2; x1e; x01] ++ repeat x07 4 ++ repeat x00 4 ++ repeat x08 32 ++ pk_a.
Definition utxo_bytes : bytes := le_enc 8 5000 ++ [x16] ++ p2wpkh_a.
Definition prev_tx : bytes :=
  le4 2 ++ [x01] ++ txid_b ++ le4 0 ++ [x00] ++ repeat xff 4
  ++ [x02] ++ utxo_bytes ++ utxo_bytes ++ le4 0.
(** The xpub above with a key source. *)
Definition xpub_pair (fp : byte) (path : list N) : pair := pr x01 xpub_bytes (repeat fp 4 ++ concat (map le4 path)).

(** ** C35: commutativity *)

(** Refuted as stated: two PSBTs for the same transaction, both orders succeed, the
    results differ in the value of an unknown key ... *)
Theorem C35_commutative_refuted : exists a b c d,
  @wf_psbt toy cfg0 a /\ @wf_psbt toy cfg0 b /\ psbt_id a = psbt_id b /\
  psbt_combine a b = Ok c /\ psbt_combine b a = Ok d /\
  g_unknowns (p_global c) <> g_unknowns (p_global d).
Proof.
  exists (cx [pr xf0 [] [x01]] [] []), (cx [pr xf0 [] [x02]] [] []),
    (comb (cx [pr xf0 [] [x01]] [] []) (cx [pr xf0 [] [x02]] [] [])),
    (comb (cx [pr xf0 [] [x02]] [] []) (cx [pr xf0 [] [x01]] [] [])).
  split; [apply cx_wf; vm_compute; reflexivity|]. split; [apply cx_wf; vm_compute; reflexivity|].
  split; [vm_compute; reflexivity|]. split; [vm_compute; reflexivity|]. split; [vm_compute; reflexivity|].
  vm_compute. intros H. discriminate H.
Qed.
Print Assumptions C35_commutative_refuted.

(** ... and even without any conflicting values, because the sighash type is not combined. *)
Theorem C35_no_conflict_refuted : exists a b c d,
  @wf_psbt toy cfg0 a /\ @wf_psbt toy cfg0 b /\ psbt_id a = psbt_id b /\
  no_conflict (global_pairs (p_global a)) (global_pairs (p_global b)) /\
  Forall2 (fun i j => no_conflict (input_pairs i) (input_pairs j)) (p_inputs a) (p_inputs b) /\
  Forall2 (fun i j => no_conflict (output_pairs i) (output_pairs j)) (p_outputs a) (p_outputs b) /\
  psbt_combine a b = Ok c /\ psbt_combine b a = Ok d /\
  map in_sighash_type (p_inputs c) = [Some 1] /\ map in_sighash_type (p_inputs d) = [None].
Proof.
  exists (cx [] [pr x03 [] (le4 1)] []), (cx [] [] []),
    (comb (cx [] [pr x03 [] (le4 1)] []) (cx [] [] [])), (comb (cx [] [] []) (cx [] [pr x03 [] (le4 1)] [])).
  split; [apply cx_wf; vm_compute; reflexivity|]. split; [apply cx_wf; vm_compute; reflexivity|].
  split; [vm_compute; reflexivity|]. split; [|split; [|split]].
  - apply no_conflictb_ok. vm_compute. reflexivity.
  - apply (forall2b_ok (fun i j => no_conflictb (input_pairs i) (input_pairs j))); [intros i j; apply no_conflictb_ok|]. vm_compute. reflexivity.
  - apply (forall2b_ok (fun i j => no_conflictb (output_pairs i) (output_pairs j))); [intros i j; apply no_conflictb_ok|]. vm_compute. reflexivity.
  - split; [vm_compute; reflexivity|]. split; [vm_compute; reflexivity|]. split; vm_compute; reflexivity.
Qed.
Print Assumptions C35_no_conflict_refuted.

(** What holds: when no key has two values and the fields that are not merged are present
    in both or in none, both orders succeed with equal results. *)
Theorem C35_commutes_if_compatible : forall (X : Ext) (L : ExtLaws X) (C : Cfg) a b,
  wf_psbt a -> wf_psbt b -> compatible a b ->
  exists c d, psbt_combine a b = Ok c /\ psbt_combine b a = Ok d /\ psbt_eq c d.
Proof. intros X L C a b Ha Hb H. exact (psbt_combine_comm a b Ha Hb H). Qed.
Print Assumptions C35_commutes_if_compatible.

Definition cx_left : psbt := cx [pr xf0 [] [x01]; xpub_pair x05 [1; 2]] [pr x01 [] utxo_bytes; pr x06 pk_a (le4 9); pr x03 [] (le4 1)] [].
Definition cx_right : psbt := cx [pr xf3 [x01] [x02]; xpub_pair x05 [1; 2]] [pr x01 [] utxo_bytes; pr x06 pk_b (le4 7); pr x03 [] (le4 1)] [pr x00 [] [x51]].
Lemma cx_left_wf : @wf_psbt toy cfg0 cx_left.
Proof. apply cx_wf. vm_compute. reflexivity. Qed.
Lemma cx_right_wf : @wf_psbt toy cfg0 cx_right.
Proof. apply cx_wf. vm_compute. reflexivity. Qed.

Definition isnone {A} (o : option A) : bool := match o with None => true | _ => false end.
Example C35_example : wf_psbt cx_left /\ wf_psbt cx_right /\ compatible cx_left cx_right
  /\ map (fun i => length (in_bip32_derivations i)) (p_inputs (comb cx_left cx_right)) = [2%nat]
  /\ map (fun i => length (in_bip32_derivations i)) (p_inputs cx_left) = [1%nat].
Proof.
  split; [exact cx_left_wf|]. split; [exact cx_right_wf|]. split; [|vm_compute; auto].
  split; [|split].
  - split; [apply no_conflictb_ok; vm_compute; reflexivity|].
    assert (H : isnone (g_fallback_lock_time (p_global cx_left)) && isnone (g_fallback_lock_time (p_global cx_right)) = true) by (vm_compute; reflexivity).
    apply andb_true_iff in H as [H1 H2]. destruct (g_fallback_lock_time (p_global cx_left)), (g_fallback_lock_time (p_global cx_right)); try discriminate. tauto.
  - apply (forall2b_ok (fun i j => no_conflictb (input_pairs i) (input_pairs j)
      && negb (isnone (in_sighash_type i)) && negb (isnone (in_sighash_type j)) && isnone (in_non_witness_utxo i) && isnone (in_non_witness_utxo j)));
      [|vm_compute; reflexivity].
    intros i j H. apply andb_true_iff in H as [H H4]. apply andb_true_iff in H as [H H3]. apply andb_true_iff in H as [H H2]. apply andb_true_iff in H as [H H1].
    split; [now apply no_conflictb_ok|]. split.
    + destruct (in_sighash_type i), (in_sighash_type j); try discriminate. split; intros Q; discriminate Q.
    + intros _. destruct (in_non_witness_utxo i), (in_non_witness_utxo j); try discriminate. auto.
  - apply (forall2b_ok (fun i j => no_conflictb (output_pairs i) (output_pairs j))); [intros i j; apply no_conflictb_ok|]. vm_compute. reflexivity.
Qed.

(** ** C36: idempotence *)

(** The hypothesis is the invariant of Rust's [BTreeMap]. *)
Theorem C36_idempotent : forall (X : Ext) (C : Cfg) p, sorted_psbt p -> psbt_combine p p = Ok p.
Proof. intros X C p H. now apply psbt_combine_self. Qed.
Print Assumptions C36_idempotent.

Theorem C36_decoded : forall (X : Ext) (L : ExtLaws X) (C : Cfg) bs p, psbt_deserialize bs = Ok p -> psbt_combine p p = Ok p.
Proof. intros X L C bs p H. apply psbt_combine_self, wf_sorted. now apply deserialize_wf in H. Qed.
Print Assumptions C36_decoded.

Example C36_example : sorted_psbt sample /\ psbt_combine sample sample = Ok sample.
Proof.
  assert (H : sorted_psbt sample) by exact (wf_sorted _ (@deserialize_wf toy toy_laws cfg0 _ _ sample_decodes)).
  split; [exact H|]. exact (C36_idempotent _ _ _ H).
Qed.

(** ** C37: nothing is lost or invented *)

(** Every pair of the result comes from one of the two PSBTs. *)
Theorem C37_values_come_from_arguments : forall (X : Ext) (L : ExtLaws X) (C : Cfg) a b c, psbt_combine a b = Ok c ->
  (forall p, In p (global_pairs (p_global c)) -> In p (global_pairs (p_global a)) \/ In p (global_pairs (p_global b))) /\
  (forall n ic p, nth_error (p_inputs c) n = Some ic -> In p (input_pairs ic) ->
     exists i, (nth_error (p_inputs a) n = Some i \/ nth_error (p_inputs b) n = Some i) /\ In p (input_pairs i)) /\
  (forall n oc p, nth_error (p_outputs c) n = Some oc -> In p (output_pairs oc) ->
     exists o, (nth_error (p_outputs a) n = Some o \/ nth_error (p_outputs b) n = Some o) /\ In p (output_pairs o)).
Proof.
  intros X L C a b c H. apply psbt_combine_ok in H as (Hg & Hi & Ho). split; [|split].
  - intros p. now apply global_combine_from.
  - intros n ic p Hn Hp. destruct (proj2 (combine_zip_ok _ _ _ _ Hi) n ic Hn) as (i & Ha & Hb & Hc).
    destruct (nth_error (p_inputs b) n) as [j|].
    + destruct (input_combine_from _ _ _ _ (Hb j eq_refl) Hp); eauto.
    + rewrite (Hc eq_refl) in Hp. eauto.
  - intros n oc p Hn Hp. destruct (proj2 (combine_zip_ok _ _ _ _ Ho) n oc Hn) as (o & Ha & Hb & Hc).
    destruct (nth_error (p_outputs b) n) as [j|].
    + destruct (output_combine_from _ _ _ _ (Hb j eq_refl) Hp); eauto.
    + rewrite (Hc eq_refl) in Hp. eauto.
Qed.
Print Assumptions C37_values_come_from_arguments.

(** Keys are kept, with these exceptions: a fallback lock time or sighash type that only the
    second PSBT has, and non-witness utxos of inputs for which only the second PSBT has a
    witness utxo.  (Surplus inputs and outputs of the second PSBT are dropped too.) *)
Theorem C37_keys_kept_partial : forall (X : Ext) (L : ExtLaws X) (C : Cfg) a b c, psbt_combine a b = Ok c ->
  length (p_inputs c) = length (p_inputs a) /\ length (p_outputs c) = length (p_outputs a) /\
  (forall k, In k (keys (global_pairs (p_global a))) -> In k (keys (global_pairs (p_global c)))) /\
  (forall k, In k (keys (global_pairs (p_global b))) ->
     In k (keys (global_pairs (p_global c))) \/ k_type k = x03 /\ g_fallback_lock_time (p_global a) = None) /\
  (forall n ia ic k, nth_error (p_inputs a) n = Some ia -> nth_error (p_inputs c) n = Some ic ->
     In k (keys (input_pairs ia)) ->
     In k (keys (input_pairs ic)) \/ exists ib, nth_error (p_inputs b) n = Some ib /\ lost_first ia ib k) /\
  (forall n ia ib ic k, nth_error (p_inputs a) n = Some ia -> nth_error (p_inputs b) n = Some ib -> nth_error (p_inputs c) n = Some ic ->
     In k (keys (input_pairs ib)) -> In k (keys (input_pairs ic)) \/ lost_second ia ib k) /\
  (forall n oa oc k, nth_error (p_outputs a) n = Some oa \/ nth_error (p_outputs b) n = Some oa -> nth_error (p_outputs c) n = Some oc ->
     In k (keys (output_pairs oa)) -> In k (keys (output_pairs oc))).
Proof.
  intros X L C a b c H. apply psbt_combine_ok in H as (Hg & Hi & Ho).
  destruct (combine_zip_ok _ _ _ _ Hi) as [Li Ni]. destruct (combine_zip_ok _ _ _ _ Ho) as [Lo No].
  split; [exact Li|]. split; [exact Lo|]. split; [|split; [|split; [|split]]].
  - intros k Hk. exact (global_combine_keys_left _ _ _ _ Hg Hk).
  - intros k Hk. exact (global_combine_keys_right _ _ _ _ Hg Hk).
  - intros n ia ic k Ha Hc Hk. destruct (Ni n ic Hc) as (i & Ha' & Hb & Hn). rewrite Ha in Ha'. apply Some_inj in Ha'. subst i.
    destruct (nth_error (p_inputs b) n) as [ib|].
    + destruct (input_combine_keys_left _ _ _ _ (Hb ib eq_refl) Hk); eauto.
    + rewrite (Hn eq_refl). auto.
  - intros n ia ib ic k Ha Hb Hc Hk. destruct (Ni n ic Hc) as (i & Ha' & Hb' & _). rewrite Ha in Ha'. apply Some_inj in Ha'. subst i.
    exact (input_combine_keys_right _ _ _ _ (Hb' ib Hb) Hk).
  - intros n oa oc k Hoa Hoc Hk. destruct (No n oc Hoc) as (o & Ha & Hb & Hn).
    destruct (nth_error (p_outputs b) n) as [ob|].
    + apply (output_combine_keys _ _ _ _ (Hb ob eq_refl)). destruct Hoa as [Q|Q].
      * rewrite Ha in Q. apply Some_inj in Q. subst. auto.
      * apply Some_inj in Q. subst. auto.
    + rewrite (Hn eq_refl). destruct Hoa as [Q|Q]; [|discriminate]. rewrite Ha in Q. apply Some_inj in Q. now subst.
Qed.
Print Assumptions C37_keys_kept_partial.

(** Each exception occurs, for PSBTs with the same id. *)
Theorem C37_fallback_refuted : exists a b c, @wf_psbt toy cfg0 a /\ @wf_psbt toy cfg0 b /\ psbt_id a = psbt_id b /\
  psbt_combine a b = Ok c /\ g_fallback_lock_time (p_global b) = Some 0 /\ g_fallback_lock_time (p_global c) = None.
Proof.
  exists (cx [] [] []), (cx [pr x03 [] (le4 0)] [] []), (comb (cx [] [] []) (cx [pr x03 [] (le4 0)] [] [])).
  split; [apply cx_wf; vm_compute; reflexivity|]. split; [apply cx_wf; vm_compute; reflexivity|].
  split; [vm_compute; reflexivity|]. split; [vm_compute; reflexivity|]. split; vm_compute; reflexivity.
Qed.
Print Assumptions C37_fallback_refuted.
Theorem C37_sighash_refuted : exists a b c, @wf_psbt toy cfg0 a /\ @wf_psbt toy cfg0 b /\ psbt_id a = psbt_id b /\
  psbt_combine a b = Ok c /\ map in_sighash_type (p_inputs b) = [Some 131] /\ map in_sighash_type (p_inputs c) = [None].
Proof.
  exists (cx [] [] []), (cx [] [pr x03 [] (le4 131)] []), (comb (cx [] [] []) (cx [] [pr x03 [] (le4 131)] [])).
  split; [apply cx_wf; vm_compute; reflexivity|]. split; [apply cx_wf; vm_compute; reflexivity|].
  split; [vm_compute; reflexivity|]. split; [vm_compute; reflexivity|]. split; vm_compute; reflexivity.
Qed.
Print Assumptions C37_sighash_refuted.
(** Both PSBTs have the non-witness utxo, the result has not. *)
Theorem C37_utxo_refuted : exists a b c t, @wf_psbt toy cfg0 a /\ @wf_psbt toy cfg0 b /\ psbt_id a = psbt_id b /\
  psbt_combine a b = Ok c /\ map in_non_witness_utxo (p_inputs a) = [Some t] /\ map in_non_witness_utxo (p_inputs b) = [Some t] /\
  map in_non_witness_utxo (p_inputs c) = [None].
Proof.
  exists (cx [] [pr x00 [] prev_tx] []), (cx [] [pr x00 [] prev_tx; pr x01 [] utxo_bytes] []),
    (comb (cx [] [pr x00 [] prev_tx] []) (cx [] [pr x00 [] prev_tx; pr x01 [] utxo_bytes] [])),
    (Tx 2 0 [TxIn txid_b 0 [] (2 ^ 32 - 1) []] [TxOut 5000 p2wpkh_a; TxOut 5000 p2wpkh_a]).
  split; [apply cx_wf; vm_compute; reflexivity|]. split; [apply cx_wf; vm_compute; reflexivity|].
  split; [vm_compute; reflexivity|]. split; [vm_compute; reflexivity|]. split; [|split]; vm_compute; reflexivity.
Qed.
Print Assumptions C37_utxo_refuted.

Example C37_example : exists ia ib ic, nth_error (p_inputs cx_left) 0 = Some ia /\ nth_error (p_inputs cx_right) 0 = Some ib
  /\ nth_error (p_inputs (comb cx_left cx_right)) 0 = Some ic /\ psbt_combine cx_left cx_right = Ok (comb cx_left cx_right)
  /\ (length (input_pairs ia), length (input_pairs ib), length (input_pairs ic)) = (5%nat, 5%nat, 6%nat).
Proof.
  exists (first_input cx_left), (first_input cx_right), (first_input (comb cx_left cx_right)). vm_compute. auto 6.
Qed.

(** ** C38: panics *)

Theorem C38_panic_refuted : exists a b, @wf_psbt toy cfg0 a /\ @wf_psbt toy cfg0 b /\ psbt_id a = psbt_id b /\
  (exists t, psbt_id a = Ok t) /\ psbt_combine a b = Panic.
Proof.
  exists (cx [xpub_pair x05 [1; 2]] [] []), (cx [xpub_pair x05 [3]] [] []).
  split; [apply cx_wf; vm_compute; reflexivity|]. split; [apply cx_wf; vm_compute; reflexivity|].
  split; [vm_compute; reflexivity|]. split; [|vm_compute; reflexivity].
  exists (match psbt_id (cx [xpub_pair x05 [1; 2]] [] []) with Ok t => t | _ => [] end). vm_compute. reflexivity.
Qed.
Print Assumptions C38_panic_refuted.

(** Exactly when it panics: at an xpub whose path in the second PSBT is shorter than in the
    first and not a suffix of it, unless the versions differ or an earlier xpub fails. *)
Theorem C38_panic_iff : forall (X : Ext) (C : Cfg) a b, sorted_psbt a -> sorted_psbt b ->
  psbt_combine a b = Panic <->
  g_version (p_global a) = g_version (p_global b) /\ g_tx_version (p_global a) = g_tx_version (p_global b) /\
  exists l1 x kb l2 ka, g_xpubs (p_global b) = l1 ++ (x, kb) :: l2 /\ In (x, ka) (g_xpubs (p_global a)) /\ short_second ka kb /\
    forall y k k', In (y, k') l1 -> In (y, k) (g_xpubs (p_global a)) -> nested k k'.
Proof.
  intros X C a b (Sa & _) (Sb & _). destruct Sa as [Sa _ _ _ _], Sb as [Sb _ _ _ _].
  rewrite psbt_combine_panic, global_combine_panic, merge_panic_iff by (apply (m_sorted_NoDup sk_xpub); assumption).
  split; intros (E1 & E2 & l1 & x & kb & l2 & ka & El & Hg & Hs & Hf); (split; [exact E1|]; split; [exact E2|]);
    exists l1, x, kb, l2, ka; (split; [exact El|]).
  - split; [now apply (m_get_in _ sk_xpub_inj) in Hg|]. split; auto. intros y k k' Hi Hk. apply (Hf y k k' Hi).
    now apply (m_in_get sk_xpub).
  - split; [now apply (m_in_get sk_xpub)|]. split; auto. intros y k k' Hi Hk. apply (Hf y k k' Hi). now apply (m_get_in _ sk_xpub_inj) in Hk.
Qed.
Print Assumptions C38_panic_iff.

(** In particular there is no panic when the common xpubs have nested paths. *)
Theorem C38_no_panic : forall (X : Ext) (C : Cfg) a b, sorted_psbt a -> sorted_psbt b ->
  (forall x ka kb, In (x, ka) (g_xpubs (p_global a)) -> In (x, kb) (g_xpubs (p_global b)) -> ~ short_second ka kb) ->
  psbt_combine a b <> Panic.
Proof.
  intros X C a b Sa Sb H E. apply C38_panic_iff in E as (_ & _ & l1 & x & kb & l2 & ka & El & Hi & Hs & _); auto.
  apply (H x ka kb); auto. rewrite El, in_app_iff. right. now left.
Qed.
Print Assumptions C38_no_panic.

Example C38_example : sorted_psbt cx_left /\ sorted_psbt cx_right
  /\ (forall x ka kb, In (x, ka) (g_xpubs (p_global cx_left)) -> In (x, kb) (g_xpubs (p_global cx_right)) -> ~ short_second ka kb)
  /\ length (g_xpubs (p_global cx_left)) = 1%nat.
Proof.
  split; [exact (wf_sorted _ cx_left_wf)|]. split; [exact (wf_sorted _ cx_right_wf)|].
  split; [|vm_compute; reflexivity].
  assert (H : g_xpubs (p_global cx_left) = g_xpubs (p_global cx_right) /\ length (g_xpubs (p_global cx_left)) = 1%nat) by (vm_compute; auto).
  destruct H as [-> H]. intros x ka kb Ha Hb. destruct (g_xpubs (p_global cx_right)) as [|e [|]]; try discriminate.
  destruct Ha as [->|[]], Hb as [E|[]]. inversion E. subst. intros [Q _]. lia.
Qed.

(** ** C39: only PSBTs for the same transaction *)

Theorem C39_different_id_refuted : exists a b c ta tb, @wf_psbt toy cfg0 a /\ @wf_psbt toy cfg0 b /\
  psbt_id a = Ok ta /\ psbt_id b = Ok tb /\ ta <> tb /\ psbt_combine a b = Ok c.
Proof.
  exists (cx [pr x03 [] (le4 7)] [] []), (cx [pr x03 [] (le4 8)] [] []), (comb (cx [pr x03 [] (le4 7)] [] []) (cx [pr x03 [] (le4 8)] [] [])),
   (match psbt_id (cx [pr x03 [] (le4 7)] [] []) with Ok t => t | _ => [] end),
   (match psbt_id (cx [pr x03 [] (le4 8)] [] []) with Ok t => t | _ => [] end).
  split; [apply cx_wf; vm_compute; reflexivity|]. split; [apply cx_wf; vm_compute; reflexivity|].
  split; [vm_compute; reflexivity|]. split; [vm_compute; reflexivity|]. split; [|vm_compute; reflexivity].
  vm_compute. intros H. discriminate H.
Qed.
Print Assumptions C39_different_id_refuted.
(** The result need not have the id of the first: the second requires a height. *)
Theorem C39_result_id_refuted : exists a b c ta tb tc, @wf_psbt toy cfg0 a /\ @wf_psbt toy cfg0 b /\
  psbt_id a = Ok ta /\ psbt_id b = Ok tb /\ psbt_combine a b = Ok c /\ psbt_id c = Ok tc /\ tc <> ta /\ tc = tb.
Proof.
  exists (cx [] [] []), (cx [] [pr x12 [] (le4 77)] []), (comb (cx [] [] []) (cx [] [pr x12 [] (le4 77)] [])),
   (match psbt_id (cx [] [] []) with Ok t => t | _ => [] end),
   (match psbt_id (cx [] [pr x12 [] (le4 77)] []) with Ok t => t | _ => [] end),
   (match psbt_id (cx [] [pr x12 [] (le4 77)] []) with Ok t => t | _ => [] end).
  split; [apply cx_wf; vm_compute; reflexivity|]. split; [apply cx_wf; vm_compute; reflexivity|].
  split; [vm_compute; reflexivity|]. split; [vm_compute; reflexivity|]. split; [vm_compute; reflexivity|]. split; [vm_compute; reflexivity|].
  split; [|reflexivity]. vm_compute. intros H. discriminate H.
Qed.
Print Assumptions C39_result_id_refuted.

(** What is checked: versions, outpoints and payments, at the positions both have. *)
Theorem C39_checked : forall (X : Ext) (L : ExtLaws X) (C : Cfg) a b c, psbt_combine a b = Ok c ->
  g_version (p_global a) = g_version (p_global b) /\ g_tx_version (p_global a) = g_tx_version (p_global b) /\
  (forall n ia ib, nth_error (p_inputs a) n = Some ia -> nth_error (p_inputs b) n = Some ib -> outpoint_of ia = outpoint_of ib) /\
  (forall n oa ob, nth_error (p_outputs a) n = Some oa -> nth_error (p_outputs b) n = Some ob -> payment_of oa = payment_of ob).
Proof.
  intros X L C a b c H. apply psbt_combine_ok in H as (Hg & Hi & Ho). apply global_combine_ok in Hg as (E1 & E2 & _).
  split; [exact E1|]. split; [exact E2|]. split.
  - intros n ia ib Ha Hb. destruct (combine_zip_ok _ _ _ _ Hi) as [Li Ni].
    destruct (nth_error (p_inputs c) n) as [ic|] eqn:Ec.
    + destruct (Ni n ic Ec) as (i & Ha' & Hb' & _). rewrite Ha in Ha'. apply Some_inj in Ha'. subst i.
      specialize (Hb' ib Hb). apply input_combine_ok in Hb' as (Q1 & Q2 & _). unfold outpoint_of. congruence.
    + apply nth_error_None in Ec. assert (nth_error (p_inputs a) n <> None) as Q by congruence. apply nth_error_Some in Q. lia.
  - intros n ia ib Ha Hb. destruct (combine_zip_ok _ _ _ _ Ho) as [Li Ni].
    destruct (nth_error (p_outputs c) n) as [ic|] eqn:Ec.
    + destruct (Ni n ic Ec) as (i & Ha' & Hb' & _). rewrite Ha in Ha'. apply Some_inj in Ha'. subst i.
      specialize (Hb' ib Hb). apply output_combine_ok in Hb' as (Q1 & Q2 & _). unfold payment_of. congruence.
    + apply nth_error_None in Ec. assert (nth_error (p_outputs a) n <> None) as Q by congruence. apply nth_error_Some in Q. lia.
Qed.
Print Assumptions C39_checked.

(** PSBTs that agree on the fields of the transaction are combined unless their xpubs
    clash, and the result has their common id. *)
Theorem C39_same_fields : forall (X : Ext) (L : ExtLaws X) (C : Cfg) a b,
  sorted_psbt a -> sorted_psbt b ->
  g_version (p_global a) = g_version (p_global b) -> same_tx_fields a b ->
  (forall x ka kb, In (x, ka) (g_xpubs (p_global a)) -> In (x, kb) (g_xpubs (p_global b)) -> nested ka kb) ->
  exists c, psbt_combine a b = Ok c /\ psbt_id c = psbt_id a /\ psbt_id c = psbt_id b.
Proof.
  intros X L C a b (Sa & _) (Sb & _) Ev Hs Hx. destruct Sa as [Sa _ _ _ _], Sb as [Sb _ _ _ _].
  destruct (combine_same_fields a b Sa Sb Ev Hs Hx) as (c & Hc & Q). exists c. split; auto.
  rewrite (psbt_id_same _ _ Q), (psbt_id_same _ _ Hs). auto.
Qed.
Print Assumptions C39_same_fields.

Lemma map_forall2 {A B} (f : A -> B) l l' : map f l = map f l' -> Forall2 (fun a b => f a = f b) l l'.
Proof.
  revert l'. induction l as [|a l IH]; intros [|b l']; cbn; try discriminate; [constructor|]. intros H. injection H as H1 H2. constructor; auto.
Qed.
Lemma F2_impl {A B} (P Q : A -> B -> Prop) : (forall a b, P a b -> Q a b) -> forall l l', Forall2 P l l' -> Forall2 Q l l'.
Proof. intros H. induction 1; constructor; auto. Qed.
Example C39_example : sorted_psbt cx_left /\ sorted_psbt cx_right /\ same_tx_fields cx_left cx_right
  /\ (exists t, psbt_id (comb cx_left cx_right) = Ok t).
Proof.
  split; [exact (wf_sorted _ cx_left_wf)|]. split; [exact (wf_sorted _ cx_right_wf)|]. split.
  - split; [vm_compute; reflexivity|]. split; [vm_compute; reflexivity|]. split; [|apply map_forall2; vm_compute; reflexivity].
    apply (F2_impl (fun i j => (outpoint_of i, in_min_time i, in_min_height i) = (outpoint_of j, in_min_time j, in_min_height j)));
      [intros i j H; injection H as H1 H2 H3 H4; unfold outpoint_of; rewrite H1, H2; auto|].
    apply (map_forall2 (fun i => (outpoint_of i, in_min_time i, in_min_height i))). vm_compute. reflexivity.
  - exists (match psbt_id (comb cx_left cx_right) with Ok t => t | _ => [] end). vm_compute. reflexivity.
Qed.

(** ** C40: key sources of xpubs *)

(** The documentation covers every pair of key sources. *)
Theorem C40_documentation_complete : forall a b, exists r, doc_merge a b r.
Proof.
  intros a b. destruct (step_cases a b) as [H|H N|H H'|H H'|H H'].
  - eauto.
  - eauto.
  - exists None. now apply DMFingerprint.
  - exists None. now apply DMNotSuffixFirst.
  - exists None. destruct (Nat.eq_dec (length (ks_path a)) (length (ks_path b))).
    + apply DMSameLength; auto. intros E. apply H'. exists []. now rewrite E.
    + apply DMNotSuffixSecond; auto. lia.
Qed.
Print Assumptions C40_documentation_complete.

(** It asks for one result only. *)
Theorem C40_documentation_functional : forall a b r r', doc_merge a b r -> doc_merge a b r' -> r = r'.
Proof.
  intros a b r r' H H'. destruct H; inversion H'; subst; try reflexivity; try congruence; try lia; try tauto;
    match goal with H : ks_path ?a = ks_path ?b |- _ => rewrite H in *; lia end.
Qed.
Print Assumptions C40_documentation_functional.

(** A successful combination follows the documentation for every xpub, except that key
    sources with equal paths and different fingerprints are not reported: the second is
    kept. *)
Theorem C40_merged_partial : forall (X : Ext) (C : Cfg) a b c, sorted_psbt a -> sorted_psbt b -> psbt_combine a b = Ok c ->
  let xa := g_xpubs (p_global a) in let xb := g_xpubs (p_global b) in let xc := g_xpubs (p_global c) in
  (forall x k, In (x, k) xa -> ~ In x (map fst xb) -> In (x, k) xc) /\
  (forall x k, In (x, k) xb -> ~ In x (map fst xa) -> In (x, k) xc) /\
  (forall x, In x (map fst xc) -> In x (map fst xa) \/ In x (map fst xb)) /\
  NoDup (map fst xc) /\
  (forall x ka kb, In (x, ka) xa -> In (x, kb) xb ->
     exists k, In (x, k) xc /\ (doc_merge ka kb (Some k) \/ ks_path ka = ks_path kb /\ ks_fp ka <> ks_fp kb /\ k = kb)).
Proof.
  intros X C a b c (Sa & _) (Sb & _) H xa xb xc. destruct Sa as [Sa _ _ _ _], Sb as [Sb _ _ _ _]. fold xa in Sa. fold xb in Sb.
  apply psbt_combine_ok in H as (Hg & _). apply global_combine_ok in Hg as (_ & _ & Hm & _). fold xa xb xc in Hm.
  pose proof (m_sorted_NoDup sk_xpub xb Sb) as Nb. destruct (merge_get _ _ _ Nb Hm) as (G1 & G2 & G3).
  pose proof (merge_sorted _ _ _ Hm Sa) as Sc.
  split; [|split; [|split; [|split]]].
  - intros x k Hi Hn. apply (m_get_in _ sk_xpub_inj). rewrite (G1 x Hn). now apply (m_in_get sk_xpub).
  - intros x k Hi Hn. apply (m_get_in _ sk_xpub_inj). apply G2; auto. apply (m_notin_get_none _ sk_xpub_inj). exact Hn.
  - intros x Hx. now apply (merge_keys _ _ _ x Hm).
  - now apply (m_sorted_NoDup sk_xpub).
  - intros x ka kb Ha Hb. destruct (G3 x ka kb Hb) as (k & Hk & Q); [now apply (m_in_get sk_xpub)|].
    exists k. split; [now apply (m_get_in _ sk_xpub_inj)|exact Q].
Qed.
Print Assumptions C40_merged_partial.

(** So key sources for which the documentation asks for an error are never combined, other
    than those with equal paths. *)
Theorem C40_clash_rejected : forall (X : Ext) (C : Cfg) a b x ka kb, sorted_psbt a -> sorted_psbt b ->
  In (x, ka) (g_xpubs (p_global a)) -> In (x, kb) (g_xpubs (p_global b)) ->
  doc_merge ka kb None -> ks_path ka <> ks_path kb -> forall c, psbt_combine a b <> Ok c.
Proof.
  intros X C a b x ka kb Sa Sb Ha Hb Hd Hp c H.
  destruct (C40_merged_partial X C a b c Sa Sb H) as (_ & _ & _ & _ & G). destruct (G x ka kb Ha Hb) as (k & _ & [Q|(Q & _)]); [|tauto].
  now pose proof (C40_documentation_functional _ _ _ _ Hd Q).
Qed.
Print Assumptions C40_clash_rejected.

(** The error names an xpub for which the documentation asks for an error. *)
Theorem C40_error_justified : forall (X : Ext) (C : Cfg) a b x, sorted_psbt a -> sorted_psbt b ->
  psbt_combine a b = Err (CombGlobal (GCInconsistentKeySources x)) ->
  exists ka kb, In (x, ka) (g_xpubs (p_global a)) /\ In (x, kb) (g_xpubs (p_global b)) /\ doc_merge ka kb None.
Proof.
  intros X C a b x _ (Sb & _) H. destruct Sb as [Sb _ _ _ _].
  assert (Hm : global_merge_xpubs (g_xpubs (p_global b)) (g_xpubs (p_global a)) = Err (GCInconsistentKeySources x)).
  { unfold psbt_combine, global_combine in H.
    destruct (g_version (p_global a) =? g_version (p_global b)); cbn [negb fail_if bind map_err] in H; [|discriminate].
    destruct (g_tx_version (p_global a) =? g_tx_version (p_global b)); cbn [negb fail_if bind map_err] in H; [|discriminate].
    destruct (global_merge_xpubs _ _) as [m|e|]; cbn [bind map_err] in H; [|congruence|discriminate].
    exfalso. destruct (combine_zip input_combine _ _); cbn [bind map_err] in H; try discriminate.
    destruct (combine_zip output_combine _ _); cbn [bind map_err] in H; discriminate. }
  destruct (merge_fail _ _ _ (m_sorted_NoDup sk_xpub _ Sb) Hm eq_refl) as (l1 & y & kb & l2 & ka & El & Hg & _ & [(Q & _)|(Q & Q1 & Q2)]); [discriminate|].
  assert (x = y) by congruence. subst y. exists ka, kb. split; [now apply (m_get_in _ sk_xpub_inj) in Hg|].
  split; [rewrite El, in_app_iff; right; now left|].
  destruct (Nat.eq_dec (length (ks_path ka)) (length (ks_path kb))).
  - apply DMSameLength; auto. intros E. apply Q2. exists []. now rewrite E.
  - apply DMNotSuffixSecond; auto. lia.
Qed.
Print Assumptions C40_error_justified.

(** The two deviations from the documentation: different fingerprints are accepted, and a
    path of the second PSBT that is shorter and not a suffix panics ([C38_panic_refuted]). *)
Theorem C40_fingerprint_refuted : exists a b c x ka kb, @wf_psbt toy cfg0 a /\ @wf_psbt toy cfg0 b /\
  g_xpubs (p_global a) = [(x, ka)] /\ g_xpubs (p_global b) = [(x, kb)] /\ doc_merge ka kb None /\
  psbt_combine a b = Ok c /\ g_xpubs (p_global c) = [(x, kb)].
Proof.
  exists (cx [xpub_pair x05 [1; 2]] [] []), (cx [xpub_pair x06 [1; 2]] [] []),
    (comb (cx [xpub_pair x05 [1; 2]] [] []) (cx [xpub_pair x06 [1; 2]] [] [])),
    (match g_xpubs (p_global (cx [xpub_pair x05 [1; 2]] [] [])) with (x, _) :: _ => x | [] => Xpub true x00 [] [] [] [] end),
    (KeySource (repeat x05 4) [1; 2]), (KeySource (repeat x06 4) [1; 2]).
  split; [apply cx_wf; vm_compute; reflexivity|]. split; [apply cx_wf; vm_compute; reflexivity|].
  split; [vm_compute; reflexivity|]. split; [vm_compute; reflexivity|]. split; [|split; vm_compute; reflexivity].
  apply DMFingerprint; [reflexivity|cbn; discriminate].
Qed.
Print Assumptions C40_fingerprint_refuted.

(** The longer path wins, in both orders, and a clash is reported. *)
Example C40_example : let a := cx [xpub_pair x05 [1; 2]] [] [] in let b := cx [xpub_pair x06 [2]] [] [] in let d := cx [xpub_pair x06 [3; 4]] [] [] in
  map snd (g_xpubs (p_global (comb a b))) = [KeySource (repeat x05 4) [1; 2]]
  /\ map snd (g_xpubs (p_global (comb b a))) = [KeySource (repeat x05 4) [1; 2]]
  /\ exists x, psbt_combine a d = Err (CombGlobal (GCInconsistentKeySources x)).
Proof.
  split; [vm_compute; reflexivity|]. split; [vm_compute; reflexivity|].
  exists (match g_xpubs (p_global (cx [xpub_pair x05 [1; 2]] [] [])) with (x, _) :: _ => x | [] => Xpub true x00 [] [] [] [] end).
  vm_compute. reflexivity.
Qed.

(** ** C57: the result of combining is a PSBT that can be written and read *)

Theorem C57_result_wellformed : forall (X : Ext) (L : ExtLaws X) (C : Cfg) a b c,
  wf_psbt a -> wf_psbt b -> psbt_combine a b = Ok c -> wf_psbt c.
Proof. intros X L C a b c Ha Hb H. exact (psbt_combine_wf a b c H Ha Hb). Qed.
Print Assumptions C57_result_wellformed.

Theorem C57_result_roundtrips : forall (X : Ext) (L : ExtLaws X) (C : Cfg) bs bs' a b c,
  psbt_deserialize bs = Ok a -> psbt_deserialize bs' = Ok b -> psbt_combine a b = Ok c ->
  exists c', psbt_deserialize (psbt_serialize c) = Ok c' /\ psbt_eq c c'.
Proof.
  intros X L C bs bs' a b c Ha Hb H. apply psbt_roundtrip. apply deserialize_wf in Ha, Hb. exact (psbt_combine_wf a b c H Ha Hb).
Qed.
Print Assumptions C57_result_roundtrips.

Example C57_example : wf_psbt cx_left /\ wf_psbt cx_right /\ psbt_combine cx_left cx_right = Ok (comb cx_left cx_right)
  /\ is_ok (psbt_deserialize (psbt_serialize (comb cx_left cx_right))) = true.
Proof.
  split; [exact cx_left_wf|]. split; [exact cx_right_wf|]. split; vm_compute; reflexivity.
Qed.

(** ** C58: which value wins *)

Lemma forall_at {A} (P : A -> Prop) l n x : Forall P l -> nth_error l n = Some x -> P x.
Proof. intros H E. rewrite Forall_forall in H. apply H. eapply nth_error_In. exact E. Qed.
Theorem C58_first_wins_single : forall (X : Ext) (L : ExtLaws X) (C : Cfg) a b c, wf_psbt a -> wf_psbt b -> psbt_combine a b = Ok c ->
  (forall p, In p (global_pairs (p_global a)) -> In (k_type (p_key p)) single_global -> In p (global_pairs (p_global c))) /\
  (forall n ia ic p, nth_error (p_inputs a) n = Some ia -> nth_error (p_inputs c) n = Some ic ->
     In p (input_pairs ia) -> In (k_type (p_key p)) single_input ->
     In p (input_pairs ic) \/ exists ib, nth_error (p_inputs b) n = Some ib /\ lost_first ia ib (p_key p)) /\
  (forall n oa oc p, nth_error (p_outputs a) n = Some oa -> nth_error (p_outputs c) n = Some oc ->
     In p (output_pairs oa) -> In (k_type (p_key p)) (single_output feat_sp) -> In p (output_pairs oc)).
Proof.
  intros X L C a b c Wa Wb H. apply psbt_combine_ok in H as (Hg & Hi & Ho).
  destruct (combine_zip_ok _ _ _ _ Hi) as [Li Ni]. destruct (combine_zip_ok _ _ _ _ Ho) as [Lo No].
  pose proof (fun n x => forall_at _ _ n x (wp_inputs _ Wa)) as Wi. pose proof (fun n x => forall_at _ _ n x (wp_outputs _ Wa)) as Wo.
  split; [|split].
  - intros p. apply (global_first _ _ _ p (wp_global _ Wa) Hg).
  - intros n ia ic p Ha Hc Hp Ht. destruct (Ni n ic Hc) as (i & Ha' & Hb & Hn). rewrite Ha in Ha'. apply Some_inj in Ha'. subst i.
    destruct (nth_error (p_inputs b) n) as [ib|].
    + destruct (input_first _ _ _ p (Wi _ _ Ha) (Hb ib eq_refl) Hp Ht); eauto.
    + rewrite (Hn eq_refl). auto.
  - intros n oa oc p Ha Hc Hp Ht. destruct (No n oc Hc) as (i & Ha' & Hb & Hn). rewrite Ha in Ha'. apply Some_inj in Ha'. subst i.
    destruct (nth_error (p_outputs b) n) as [ob|].
    + exact (output_first _ _ _ p (Wo _ _ Ha) (Hb ob eq_refl) Hp Ht).
    + now rewrite (Hn eq_refl).
Qed.
Print Assumptions C58_first_wins_single.

(** (0x01 is the type of the xpubs of the global map, see C40.) *)
Theorem C58_second_wins_maps : forall (X : Ext) (L : ExtLaws X) (C : Cfg) a b c, wf_psbt a -> wf_psbt b -> psbt_combine a b = Ok c ->
  (forall p, In p (global_pairs (p_global b)) -> ~ In (k_type (p_key p)) (x01 :: single_global) -> In p (global_pairs (p_global c))) /\
  (forall n ib ic p, nth_error (p_inputs b) n = Some ib -> nth_error (p_inputs c) n = Some ic ->
     In p (input_pairs ib) -> ~ In (k_type (p_key p)) single_input -> In p (input_pairs ic)) /\
  (forall n ob oc p, nth_error (p_outputs b) n = Some ob -> nth_error (p_outputs c) n = Some oc ->
     In p (output_pairs ob) -> ~ In (k_type (p_key p)) (single_output feat_sp) -> In p (output_pairs oc)).
Proof.
  intros X L C a b c Wa Wb H. apply psbt_combine_ok in H as (Hg & Hi & Ho).
  destruct (combine_zip_ok _ _ _ _ Hi) as [Li Ni]. destruct (combine_zip_ok _ _ _ _ Ho) as [Lo No].
  pose proof (fun n x => forall_at _ _ n x (wp_inputs _ Wb)) as Wi. pose proof (fun n x => forall_at _ _ n x (wp_outputs _ Wb)) as Wo.
  split; [|split].
  - intros p. apply (global_second _ _ _ p (wp_global _ Wb) Hg).
  - intros n ib ic p Hb Hc. destruct (Ni n ic Hc) as (i & _ & Q & _). exact (input_second _ _ _ p (Wi _ _ Hb) (Q ib Hb)).
  - intros n ob oc p Hb Hc. destruct (No n oc Hc) as (i & _ & Q & _). exact (output_second _ _ _ p (Wo _ _ Hb) (Q ob Hb)).
Qed.
Print Assumptions C58_second_wins_maps.

Example C58_example :
  let a := cx [pr xf0 [] [x01]; pr x03 [] (le4 7)] [pr x10 [] (le4 5)] [] in
  let b := cx [pr xf0 [] [x02]; pr x03 [] (le4 8)] [pr x10 [] (le4 6)] [] in
  wf_psbt a /\ wf_psbt b /\ psbt_combine a b = Ok (comb a b) /\ map snd (g_unknowns (p_global (comb a b))) = [[x02]]
  /\ g_fallback_lock_time (p_global (comb a b)) = Some 7 /\ map in_sequence (p_inputs (comb a b)) = [Some 5].
Proof.
  split; [apply cx_wf; vm_compute; reflexivity|]. split; [apply cx_wf; vm_compute; reflexivity|]. vm_compute. auto 6.
Qed.

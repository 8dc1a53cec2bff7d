(** C135, C136: the errors of combining (src/v2/mod.rs:79, 675-687,
    src/v2/map/{global,input,output}.rs [combine], src/v0/bitcoin/mod.rs:224-287). *)
From Verif Require Import Base OMap Consensus ConsensusFacts Ext ExtInstance Raw RawFacts TapTree Serialize SerializeFacts MapCodec
  V2Global V2Input V2Output V2Psbt SpecCodec SpecPsbt V2CodecFacts V2WireFacts SpecRoles V2Roles V2RolesFacts SpecCombine V2CombineFacts
  V0Error V0Input V0Output V0Psbt SpecPsbt0 V0PsbtFacts V0WireFacts V0PairFacts SpecCombine0 V0CombineFacts CombineMut SpecCombineErr
  CombineErrFacts PropertiesV2Combine PropertiesV0Combine SampleV2 SampleV0.
Local Open Scope N_scope.

(** Used by the examples only; the theorems bind their own. *)
#[local] Existing Instance toy | 100.
#[local] Instance ex_cfg : Cfg | 100 := cfg_of false false.

(** ** C135: the error is the first disagreement *)

Theorem C135_error : forall (X : Ext) (C : Cfg) a b e, sorted_psbt a -> sorted_psbt b -> (psbt_combine a b = Err e <-> disagree a b e).
Proof. intros X C a b e. apply combine_err_iff. Qed.
Print Assumptions C135_error.

Theorem C135_ok : forall (X : Ext) (C : Cfg) a b, sorted_psbt a -> sorted_psbt b ->
  ((exists c, psbt_combine a b = Ok c) <->
   globals_agree (p_global a) (p_global b) /\ all_agree same_point (p_inputs a) (p_inputs b)
   /\ all_agree same_payment (p_outputs a) (p_outputs b)).
Proof. intros X C a b. apply combine_ok_iff. Qed.
Print Assumptions C135_ok.

Theorem C135_v0 : forall (X : Ext) a b e, sorted_psbt0 a -> sorted_psbt0 b -> (psbt0_combine a b = Err e <-> disagree0 a b e).
Proof. intros X a b e. apply combine0_err_iff. Qed.
Print Assumptions C135_v0.

(** The error of the other order has the two values exchanged. *)
Definition exchanged (e : comberr) : comberr :=
  match e with
  | CombGlobal (GCVersionMismatch a b) => CombGlobal (GCVersionMismatch b a)
  | CombGlobal (GCTxVersionMismatch a b) => CombGlobal (GCTxVersionMismatch b a)
  | CombGlobal (GCInconsistentKeySources x) => e
  | CombInput (ICPreviousTxidMismatch a b) => CombInput (ICPreviousTxidMismatch b a)
  | CombInput (ICSpentOutputIndexMismatch a b) => CombInput (ICSpentOutputIndexMismatch b a)
  | CombOutput (OCAmountMismatch a b) => CombOutput (OCAmountMismatch b a)
  | CombOutput (OCScriptPubkeyMismatch a b) => CombOutput (OCScriptPubkeyMismatch b a)
  end.
Lemma first_at_sym {A} (R : A -> A -> Prop) l l' n a b : (forall x y, R x y -> R y x) -> first_at R l l' n a b -> first_at R l' l n b a.
Proof. intros HR (H1 & H2 & H3). split; [exact H2|]. split; [exact H1|]. intros m x y Hm Hx Hy. apply HR. eauto. Qed.
Lemma all_agree_sym {A} (R : A -> A -> Prop) l l' : (forall x y, R x y -> R y x) -> all_agree R l l' -> all_agree R l' l.
Proof. intros HR H n x y Hx Hy. apply HR. eauto. Qed.
Lemma globals_agree_sym a b : globals_agree a b -> globals_agree b a.
Proof.
  intros (E1 & E2 & H). split; [now symmetry|]. split; [now symmetry|]. intros x ka kb Ha Hb. destruct (H x kb ka Hb Ha); unfold nested; auto.
Qed.

Theorem C135_exchanged : forall (X : Ext) (C : Cfg) a b e, sorted_psbt a -> sorted_psbt b ->
  (forall x, e <> CombGlobal (GCInconsistentKeySources x)) ->
  (psbt_combine a b = Err e <-> psbt_combine b a = Err (exchanged e)).
Proof.
  assert (Q : forall a b e, (forall x, e <> CombGlobal (GCInconsistentKeySources x)) -> disagree a b e -> disagree b a (exchanged e)).
  { intros a b e N. destruct e as [[v w|v w|x]|[v w|v w]|[v w|v w]]; cbn [disagree exchanged global_disagree].
    - intuition.
    - intuition.
    - destruct (N x eq_refl).
    - intros (G & n & i & j & F & D). split; [now apply globals_agree_sym|]. exists n, j, i.
      split; [apply first_at_sym; [unfold same_point; congruence|exact F]|]. cbn in *. intuition.
    - intros (G & n & i & j & F & D). split; [now apply globals_agree_sym|]. exists n, j, i.
      split; [apply first_at_sym; [unfold same_point; congruence|exact F]|]. cbn in *. intuition.
    - intros (G & I & n & i & j & F & D). split; [now apply globals_agree_sym|].
      split; [apply all_agree_sym; [unfold same_point; congruence|exact I]|]. exists n, j, i.
      split; [apply first_at_sym; [unfold same_payment; congruence|exact F]|]. cbn in *. intuition.
    - intros (G & I & n & i & j & F & D). split; [now apply globals_agree_sym|].
      split; [apply all_agree_sym; [unfold same_point; congruence|exact I]|]. exists n, j, i.
      split; [apply first_at_sym; [unfold same_payment; congruence|exact F]|]. cbn in *. intuition. }
  intros X C a b e Sa Sb N. rewrite !combine_err_iff by assumption. split; [apply Q; exact N|].
  intros H. apply Q in H; [|intros x; destruct e as [[? ?|? ?|y]|[? ?|? ?]|[? ?|? ?]]; try discriminate; destruct (N y eq_refl)].
  now destruct e as [[? ?|? ?|y]|[? ?|? ?]|[? ?|? ?]].
Qed.
Print Assumptions C135_exchanged.

(** Another input, and two xpubs. *)
Definition ce_bytes (i o : list pair) : bytes :=
  sample_of [pr xfb [] (le4 2); pr x02 [] (le4 2); pr x04 [] [x01]; pr x05 [] [x01]] [i] [o].
Definition ce (i o : list pair) : psbt := match @psbt_deserialize toy ex_cfg (ce_bytes i o) with Ok p => p | _ => cx [] [] [] end.
Definition xpub_pair2 (path : list N) : pair := pr x01 xpub_a (repeat x05 4 ++ concat (map le4 path)).
Example C135_ex :
  let i := [pr x0e [] txid_a; pr x0f [] (le4 1)] in let o := [pr x03 [] (le_enc 8 4000); pr x04 [] p2wpkh_a] in
  psbt_combine (ce i o) (ce [pr x0e [] txid_a; pr x0f [] (le4 3)] [pr x03 [] (le_enc 8 5); pr x04 [] p2wpkh_a])
    = Err (CombInput (ICSpentOutputIndexMismatch 1 3))
  /\ psbt_combine (ce i o) (ce i [pr x03 [] (le_enc 8 5); pr x04 [] p2wpkh_a]) = Err (CombOutput (OCAmountMismatch 4000 5))
  /\ is_ok (psbt_combine (ce i o) (ce i o)) = true.
Proof. split; [|split]; vm_compute; reflexivity. Qed.

(** ** C136: what a failure leaves behind *)

(** The results are those of C35-C40 and C135. *)
Theorem C136_results : forall (X : Ext) (C : Cfg) a b,
  (forall c, psbt0_combine_mut a b = (c, Ok tt) <-> psbt0_combine a b = Ok c)
  /\ (forall e, (exists c, psbt0_combine_mut a b = (c, Err e)) <-> psbt0_combine a b = Err e).
Proof. intros X C a b. split; [apply mut0_ok|apply mut0_err]. Qed.
Print Assumptions C136_results.
Theorem C136_results_global : forall (X : Ext) (C : Cfg) a b,
  (forall c, global_combine_mut a b = (c, Ok tt) <-> global_combine a b = Ok c)
  /\ (forall e, (exists c, global_combine_mut a b = (c, Err e)) <-> global_combine a b = Err e).
Proof. intros X C a b. split; [apply global_mut_ok|apply global_mut_err]. Qed.
Print Assumptions C136_results_global.

(** A failure may change the PSBT: an xpub of the other one has been added. *)
Theorem C136_unchanged_refuted : exists a b c e, @wf_psbt0 toy a /\ @wf_psbt0 toy b /\ psbt0_combine_mut a b = (c, Err e)
  /\ length (p0_xpub a) = 1%nat /\ length (p0_xpub c) = 2%nat.
Proof.
  pose (a := cx0 [xpub_pair x05 [1; 2]] [] []). pose (b := cx0 [xpub_pair2 [7]; xpub_pair x05 [3; 4]] [] []).
  exists a, b, (fst (psbt0_combine_mut a b)), (match snd (psbt0_combine_mut a b) with Err e => e | _ => E0InvalidMagic end).
  split; [apply cx0_wf; vm_compute; reflexivity|]. split; [apply cx0_wf; vm_compute; reflexivity|].
  split; [vm_compute; reflexivity|]. split; vm_compute; reflexivity.
Qed.
Print Assumptions C136_unchanged_refuted.
Theorem C136_global_unchanged_refuted : exists a b c e, @wf_psbt toy ex_cfg a /\ @wf_psbt toy ex_cfg b
  /\ global_combine_mut (p_global a) (p_global b) = (c, Err e)
  /\ length (g_xpubs (p_global a)) = 1%nat /\ length (g_xpubs c) = 2%nat.
Proof.
  pose (a := cx [xpub_pair x05 [1; 2]] [] []). pose (b := cx [xpub_pair2 [7]; xpub_pair x05 [3; 4]] [] []).
  exists a, b, (fst (global_combine_mut (p_global a) (p_global b))),
    (match snd (global_combine_mut (p_global a) (p_global b)) with Err e => e | _ => GCVersionMismatch 0 0 end).
  split; [apply cx_wf; vm_compute; reflexivity|]. split; [apply cx_wf; vm_compute; reflexivity|].
  split; [vm_compute; reflexivity|]. split; vm_compute; reflexivity.
Qed.
Print Assumptions C136_global_unchanged_refuted.

(** Only the version and the xpubs change, and those only when an xpub conflicts: then the
    xpubs before it have been merged. *)
Theorem C136_left_partial : forall (X : Ext) a b c e, sorted_psbt0 a -> sorted_psbt0 b -> psbt0_combine_mut a b = (c, Err e) ->
  p0_unsigned_tx c = p0_unsigned_tx a /\ p0_proprietary c = p0_proprietary a /\ p0_unknown c = p0_unknown a
  /\ p0_inputs c = p0_inputs a /\ p0_outputs c = p0_outputs a
  /\ (c = a \/ exists x, e = E0CombineInconsistentKeySources x /\ p0_version c = N.max (p0_version a) (p0_version b)
                 /\ merged_before (p0_xpub a) (p0_xpub b) x (p0_xpub c)).
Proof.
  intros X a b c e Sa Sb H. apply mut0_left in H as [(-> & _)|(xs & e' & E & M & -> & ->)]; [auto 8|].
  cbn [p0_unsigned_tx p0_version p0_xpub p0_proprietary p0_unknown p0_inputs p0_outputs].
  do 5 (split; [reflexivity|]). right.
  destruct (mut_merged _ _ _ _ (sp0_xpub _ Sa) (m_sorted_NoDup sk_xpub _ (sp0_xpub _ Sb)) M) as (x & -> & Q). exists x. auto.
Qed.
Print Assumptions C136_left_partial.
Theorem C136_global_left_partial : forall (X : Ext) (C : Cfg) a b c e, sorted_global a -> sorted_global b -> global_combine_mut a b = (c, Err e) ->
  c = a \/ exists x, e = GCInconsistentKeySources x /\ c = set_g_xpubs a (g_xpubs c) /\ merged_before (g_xpubs a) (g_xpubs b) x (g_xpubs c).
Proof.
  intros X C a b c e Sa Sb H. apply global_mut_left in H as [(-> & _)|(xs & E1 & E2 & M & ->)]; [auto|]. right.
  destruct (mut_merged _ _ _ _ (sg_xpubs _ Sa) (m_sorted_NoDup sk_xpub _ (sg_xpubs _ Sb)) M) as (x & -> & Q). exists x. auto.
Qed.
Print Assumptions C136_global_left_partial.

(** Trying again gives the same error and changes nothing more. *)
Theorem C136_again : forall (X : Ext) (C : Cfg) a b c e, sorted_psbt0 b -> psbt0_combine_mut a b = (c, Err e) -> psbt0_combine_mut c b = (c, Err e).
Proof. intros X C a b c e Sb. apply mut0_again. exact (m_sorted_NoDup sk_xpub _ (sp0_xpub _ Sb)). Qed.
Print Assumptions C136_again.
Theorem C136_global_again : forall (X : Ext) (C : Cfg) a b c e, sorted_global b -> global_combine_mut a b = (c, Err e) -> global_combine_mut c b = (c, Err e).
Proof. intros X C a b c e Sb. apply global_mut_again. exact (m_sorted_NoDup sk_xpub _ (sg_xpubs _ Sb)). Qed.
Print Assumptions C136_global_again.

(** What is left can be combined with everything that it could be combined with before, as
    far as the xpubs that came from the other PSBT do not stand in the way. *)
Theorem C136_recovers : forall (X : Ext) (C : Cfg) a b c e d, sorted_psbt0 a -> sorted_psbt0 b -> sorted_psbt0 d ->
  psbt0_combine_mut a b = (c, Err e) -> (forall y k, In (y, k) (p0_xpub b) -> ~ In y (map fst (p0_xpub d))) ->
  (exists r, psbt0_combine a d = Ok r) -> exists r, psbt0_combine c d = Ok r.
Proof.
  intros X C a b c e d Sa Sb Sd H N (r & Hr).
  destruct (C136_left_partial X a b c e Sa Sb H) as (Et & _ & _ & _ & _ & [->|(x & _ & _ & l1 & kb & l2 & El & G & _)]); [eauto|].
  apply psbt0_combine_ok in Hr as (E & xs & Hm & _).
  pose proof (merge_ok_agree _ _ _ (sp0_xpub _ Sa) (m_sorted_NoDup sk_xpub _ (sp0_xpub _ Sd)) Hm) as A.
  assert (Sc : m_sorted sk_xpub (p0_xpub c)).
  { apply mut0_left in H as [(-> & _)|(ys & e' & _ & M & _ & ->)]; [apply Sa|]. cbn [p0_xpub].
    destruct (mut_stops _ _ _ _ M) as (m1 & z & k & m2 & _ & M1 & _). exact (merge_sorted _ _ _ M1 (sp0_xpub _ Sa)). }
  assert (A' : xpubs_agree (p0_xpub c) (p0_xpub d)).
  { intros y k k' Hc Hd. apply (A y k k'); [|exact Hd]. apply G; [|exact Hc]. intros Q. apply in_map_iff in Q as ([y' v] & Ey & Q). cbn in Ey. subst y'.
    apply (N y v); [rewrite El, in_app_iff; auto|]. exact (in_map fst _ _ Hd). }
  destruct (merge_agree_ok _ _ Sc (m_sorted_NoDup sk_xpub _ (sp0_xpub _ Sd)) A') as (m & Hm').
  unfold psbt0_combine. rewrite Et. destruct (tx_dec _ _) as [_|Q]; [|tauto]. rewrite merge_xpubs0_eq, Hm'. cbn [map_err bind]. eauto.
Qed.
Print Assumptions C136_recovers.

Example C136_ex :
  let a := cx0 [xpub_pair x05 [1; 2]] [] [] in let b := cx0 [xpub_pair2 [7]; xpub_pair x05 [3; 4]] [] [] in
  exists x, psbt0_combine a b = Err (E0CombineInconsistentKeySources x) /\ is_ok (psbt0_combine (fst (psbt0_combine_mut a b)) a) = true.
Proof.
  exists (match p0_xpub (cx0 [xpub_pair x05 [1; 2]] [] []) with (x, _) :: _ => x | [] => Xpub true x00 [] [] [] [] end).
  split; vm_compute; reflexivity.
Qed.

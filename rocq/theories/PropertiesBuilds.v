(** C148: a PSBT with silent payment data passes through builds without the feature. *)
From Coq Require Import List Permutation.
From Verif Require Import Base OMap Consensus ConsensusFacts Ext ExtInstance Raw RawFacts TapTree Serialize SerializeFacts
  MapCodec MapFacts V2Global V2Input V2Output V2Psbt V2Roles SpecPsbt V2PsbtFacts V2WireFacts SpecSerde SpecBuilds BuildsFacts SampleV2.
Local Open Scope N_scope.

(** Used by the examples only; the theorems bind their own. *)
#[local] Existing Instance toy | 100.
#[local] Existing Instance toy_laws | 100.
Local Notation cfg0 := (cfg_of false false).
Local Notation cfg1 := (cfg_of true false).

(** What [Vec::with_capacity] of the other build can hold. *)
Definition has_room (si so : N) (p : psbt) : Prop := blen (p_inputs p) * si < 2 ^ 63 /\ blen (p_outputs p) * so < 2 ^ 63.
Definition scripts_known (p : psbt) : Prop := Forall (fun o => out_script_pubkey o <> []) (p_outputs p).

Lemma has_room_iff (C' : Cfg) p : has_room (@size_input C') (@size_output C') p <-> room C' p.
Proof. unfold has_room, room, ISIZE_MAX. lia. Qed.

(** The build without the feature reads the data as unknown pairs. *)
Theorem C148_read : forall (X : Ext) (L : ExtLaws X) (C C' : Cfg), @feat_sp C = true -> @feat_sp C' = false ->
  forall p q, wf_psbt (C := C) p -> no_tap_ties p -> scripts_known p -> has_room (@size_input C') (@size_output C') p ->
  plain p q -> psbt_deserialize (C := C') (psbt_serialize (C := C) p) = Ok q.
Proof. intros X L C C' H H' p q W T S R%has_room_iff Hp. now apply plain_reads. Qed.
Print Assumptions C148_read.

(** There is always something to read. *)
Theorem C148_some : forall (X : Ext) (C : Cfg), @feat_sp C = true ->
  forall p, wf_psbt (C := C) p -> exists q, plain p q.
Proof. intros X C H p W. now apply (plain_exists C). Qed.
Print Assumptions C148_some.

(** The build with the feature finds all of it again in what the other build writes. *)
Theorem C148_back : forall (X : Ext) (L : ExtLaws X) (C C' : Cfg), @feat_sp C = true -> @feat_sp C' = false ->
  forall p q, wf_psbt (C := C) p -> no_tap_ties p -> scripts_known p -> has_room (@size_input C') (@size_output C') p ->
  plain p q -> psbt_deserialize (C := C) (psbt_serialize (C := C') q) = Ok p.
Proof. intros X L C C' H H' p q W T S R%has_room_iff Hp. now apply (plain_back C C'). Qed.
Print Assumptions C148_back.

(** It reads nothing else: an output without script is refused there. *)
Theorem C148_accepted : forall (X : Ext) (L : ExtLaws X) (C C' : Cfg), @feat_sp C = true -> @feat_sp C' = false ->
  forall p, wf_psbt (C := C) p -> no_tap_ties p ->
  ((exists q, psbt_deserialize (C := C') (psbt_serialize (C := C) p) = Ok q)
   <-> scripts_known p /\ has_room (@size_input C') (@size_output C') p).
Proof.
  intros X L C C' H H' p W T. split.
  - intros (q & D). apply (accepted_scripts C C' H H' p q W) in D as [D1 D2]. split; [exact D1|now apply has_room_iff].
  - intros [S R]. destruct (C148_some X C H p W) as (q & Hp). exists q. now apply C148_read.
Qed.
Print Assumptions C148_accepted.

(** Both builds see the same transaction and fee. *)
Theorem C148_same_tx : forall p q, plain p q ->
  unsigned_tx p = unsigned_tx q /\ psbt_fee p = psbt_fee q /\ forall (X : Ext), psbt_id p = psbt_id q.
Proof.
  intros p q H. split; [now apply plain_tx|]. split; [now apply plain_fee|]. intros X. unfold psbt_id. now rewrite (plain_tx _ _ H).
Qed.
Print Assumptions C148_same_tx.

(** Both combine alike, as long as the outputs do not disagree about the data. *)
Theorem C148_combine_partial : forall (X : Ext) (C : Cfg), @feat_sp C = true ->
  forall a b a' b', wf_psbt (C := C) a -> wf_psbt (C := C) b -> all_agree a b -> plain a a' -> plain b b' ->
  same_outcome plain (psbt_combine a b) (psbt_combine a' b').
Proof. intros X C H a b a' b' Wa Wb O Pa Pb. now apply (plain_combine C). Qed.
Print Assumptions C148_combine_partial.

(** ** Cases *)

Definition sp_of (info : byte) (script : bytes) : psbt :=
  Psbt (Global 2 2 None 0 1 1 [] [(pk_a, pk_b)] [(pk_a, repeat x07 64)] [] [(Key x0b [x01], [x02]); (Key xf0 [x01], [x02])])
    (map (fun i => set_in_sp_dleq_proofs [(pk_a, repeat x07 64)] (set_in_sp_ecdh_shares [(pk_a, pk_b)] i)) (firstn 1 (p_inputs sample)))
    [Output 5 script None None [] None None [] (Some (repeat info 66)) (Some 770) [] [(Key x0b [], [x09])]].
Definition sp_ex : psbt := sp_of x02 [x51].

Lemma sp_of_decodes : @psbt_deserialize toy cfg1 (@psbt_serialize toy cfg1 sp_ex) = Ok sp_ex.
Proof. vm_compute. reflexivity. Qed.
Lemma sp_ex_wf : @wf_psbt toy cfg1 sp_ex.
Proof. apply (@deserialize_wf toy toy_laws cfg1 _ _ sp_of_decodes). Qed.

Example C148_case :
  @wf_psbt toy cfg1 sp_ex /\ no_tap_ties sp_ex /\ scripts_known sp_ex /\ has_room (@size_input cfg0) (@size_output cfg0) sp_ex
  /\ exists q, @psbt_deserialize toy cfg0 (@psbt_serialize toy cfg1 sp_ex) = Ok q /\ plain sp_ex q
       /\ map (fun kv => (k_type (fst kv), snd kv)) (concat (map out_unknowns (p_outputs q))) = [(x09, repeat x02 66); (x0a, [x02; x03; x00; x00]); (x0b, [x09])].
Proof.
  assert (T : @no_tap_ties toy sp_ex) by (repeat constructor).
  assert (K : scripts_known sp_ex) by (repeat constructor; discriminate).
  assert (R : has_room (@size_input cfg0) (@size_output cfg0) sp_ex) by (split; reflexivity).
  split; [exact sp_ex_wf|]. repeat (split; [assumption|]).
  destruct (C148_some toy cfg1 eq_refl sp_ex sp_ex_wf) as (q & Hq). exists q.
  pose proof (C148_read toy toy_laws cfg1 cfg0 eq_refl eq_refl sp_ex q sp_ex_wf T K R Hq) as D.
  split; [exact D|]. split; [exact Hq|].
  assert (E : match @psbt_deserialize toy cfg0 (@psbt_serialize toy cfg1 sp_ex) with Ok q => map (fun kv => (k_type (fst kv), snd kv)) (concat (map out_unknowns (p_outputs q))) | _ => [] end
    = [(x09, repeat x02 66); (x0a, [x02; x03; x00; x00]); (x0b, [x09])]) by (vm_compute; reflexivity).
  rewrite D in E. exact E.
Qed.

(** An output whose script is still to be computed stops the other build. *)
Theorem C148_read_refuted : exists (X : Ext) (L : ExtLaws X) (C C' : Cfg) p, @feat_sp C = true /\ @feat_sp C' = false
  /\ wf_psbt (C := C) p /\ no_tap_ties p /\ has_room (@size_input C') (@size_output C') p
  /\ forall q, psbt_deserialize (C := C') (psbt_serialize (C := C) p) <> Ok q.
Proof.
  exists toy, toy_laws, cfg1, cfg0, (sp_of x02 []). split; [reflexivity|]. split; [reflexivity|].
  assert (W : @wf_psbt toy cfg1 (sp_of x02 [])).
  { apply (@deserialize_wf toy toy_laws cfg1 (@psbt_serialize toy cfg1 (sp_of x02 []))). vm_compute. reflexivity. }
  split; [exact W|]. split; [repeat constructor|]. split; [split; reflexivity|].
  intros q D. apply (accepted_scripts cfg1 cfg0 eq_refl eq_refl _ _ W) in D as [D _].
  apply Forall_inv in D. apply D. reflexivity.
Qed.
Print Assumptions C148_read_refuted.

(** Two values for the same output: the one build keeps the first, the other the second. *)
Theorem C148_combine_refuted : exists (X : Ext) (C : Cfg) a b a' b' r r', @feat_sp C = true
  /\ wf_psbt (C := C) a /\ wf_psbt (C := C) b /\ plain a a' /\ plain b b'
  /\ psbt_combine a b = Ok r /\ psbt_combine a' b' = Ok r' /\ ~ plain r r'.
Proof.
  assert (Wb : @wf_psbt toy cfg1 (sp_of x03 [x51])).
  { apply (@deserialize_wf toy toy_laws cfg1 (@psbt_serialize toy cfg1 (sp_of x03 [x51]))). vm_compute. reflexivity. }
  destruct (C148_some toy cfg1 eq_refl sp_ex sp_ex_wf) as (qa & Ha).
  destruct (C148_some toy cfg1 eq_refl _ Wb) as (qb & Hb).
  assert (Ta : @no_tap_ties toy sp_ex) by (repeat constructor).
  assert (Ka : scripts_known sp_ex) by (repeat constructor; discriminate).
  assert (Ra : has_room (@size_input cfg0) (@size_output cfg0) sp_ex) by (split; reflexivity).
  assert (Tb : @no_tap_ties toy (sp_of x03 [x51])) by (repeat constructor).
  assert (Kb : scripts_known (sp_of x03 [x51])) by (repeat constructor; discriminate).
  assert (Rb : has_room (@size_input cfg0) (@size_output cfg0) (sp_of x03 [x51])) by (split; reflexivity).
  pose proof (C148_read toy toy_laws cfg1 cfg0 eq_refl eq_refl _ _ sp_ex_wf Ta Ka Ra Ha) as Da.
  pose proof (C148_read toy toy_laws cfg1 cfg0 eq_refl eq_refl _ _ Wb Tb Kb Rb Hb) as Db.
  assert (E : match @psbt_deserialize toy cfg0 (@psbt_serialize toy cfg1 sp_ex), @psbt_deserialize toy cfg0 (@psbt_serialize toy cfg1 (sp_of x03 [x51])) with
    | Ok a, Ok b => match psbt_combine a b with Ok r' => map (fun kv => (k_type (fst kv), snd kv)) (concat (map out_unknowns (p_outputs r'))) | _ => [] end
    | _, _ => [] end = [(x09, repeat x03 66); (x0a, [x02; x03; x00; x00]); (x0b, [x09])]) by (vm_compute; reflexivity).
  rewrite Da, Db in E.
  assert (F : match psbt_combine sp_ex (sp_of x03 [x51]) with Ok r => map out_sp_v0_info (p_outputs r) | _ => [] end = [Some (repeat x02 66)]) by (vm_compute; reflexivity).
  destruct (psbt_combine qa qb) as [r'|e|] eqn:C1; [|discriminate E|discriminate E].
  destruct (psbt_combine sp_ex (sp_of x03 [x51])) as [r|e|] eqn:C2; [|discriminate F|discriminate F].
  exists toy, cfg1, sp_ex, (sp_of x03 [x51]), qa, qb, r, r'. split; [reflexivity|]. split; [exact sp_ex_wf|]. split; [exact Wb|].
  do 2 (split; [assumption|]). split; [exact C2|]. split; [exact C1|].
  intros (_ & _ & Ho). clear - E F Ho. destruct Ho as [|o u os us (_ & _ & P) Ho]; [discriminate|].
  cbn [map] in F. injection F as F _. rewrite F in P. cbn [raw_entry app] in P.
  assert (I : In (Key x09 [], repeat x02 66) (out_unknowns u)).
  { apply (Permutation_in _ (Permutation_sym P)). apply in_app_iff. right. now left. }
  assert (J : In (x09, repeat x02 66) [(x09, repeat x03 66); (x0a, [x02; x03; x00; x00]); (x0b, [x09])]).
  { rewrite <- E. cbn [map concat]. rewrite map_app. apply in_app_iff. left. apply in_map_iff. now exists (Key x09 [], repeat x02 66). }
  destruct J as [J|[J|[J|[]]]]; discriminate.
Qed.
Print Assumptions C148_combine_refuted.

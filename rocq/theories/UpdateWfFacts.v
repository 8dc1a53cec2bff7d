(** Facts about the serialization of updated v0 PSBTs. *)
From Coq Require Import Sorted Permutation.
From Verif Require Import Base OMap Consensus ConsensusFacts Ext Raw TapTree TapTreeFacts SpecCodec Serialize SerializeFacts MapCodec
  SpecPsbt V2Roles V2Sign SpecSign SpecFinalize V2RolesFacts V0Input V0Output V0Psbt SpecPsbt0 SpecExtract0 V0Sign SpecSign0 V0SignFacts V0SignResultFacts
  V0Finalize SpecFinalize0 V0Update SpecUpdate0 V0UpdateFacts V0UpdateItemFacts V0UpdatePsbtFacts SpecWorkflow0.
Local Open Scope N_scope.

Section Wf.
Context `{X : Ext} {L : ExtLaws X} `{T : SchnorrExt} {LD : DescLaws T} `{D : DescExt}.

(** ** Sizes *)

Lemma enc_all_len {A} (f : A -> bytes) (c : N) (l : list A) : Forall (fun a => blen (f a) = c) l -> blen (enc_all f l) = c * blen l.
Proof.
  unfold enc_all. induction 1 as [|a l H _ IH]; [unfold blen; cbn [length map concat]; lia|]. cbn [map concat]. rewrite blen_app, H, IH. unfold blen. cbn [length]. lia.
Qed.
Lemma origin_bytes hs src : Forall (wf_bytes_n 32) hs -> length (ks_fp src) = 4%nat -> blen (ser_taporigin (hs, src)) = origin_size (hs, src).
Proof.
  intros H1 H2. unfold ser_taporigin, enc_vec, ser_keysource, origin_size. cbn [fst snd]. rewrite !blen_app.
  rewrite (enc_all_len (fun h => h) 32 hs) by (eapply Forall_impl; [|exact H1]; unfold wf_bytes_n, blen; intros; lia).
  rewrite (enc_all_len enc_u32 4 (ks_path src)) by (apply Forall_forall; intros; reflexivity).
  assert (E : blen (ks_fp src) = 4) by (unfold blen; now rewrite H2). unfold varint_size. rewrite E. lia.
Qed.
Lemma origin_wf hs src : Forall (wf_bytes_n 32) hs -> length (ks_fp src) = 4%nat -> Forall wf_u32 (ks_path src) ->
  (wf_taporigin (hs, src) <-> origin_size (hs, src) <= MAX_VALUE).
Proof.
  intros H1 H2 H3. unfold wf_taporigin. rewrite (origin_bytes hs src H1 H2). cbn [fst snd]. tauto.
Qed.

Lemma leaf_bytes d v s : blen (enc_leaf (d, v, s)) = 2 + varint_size (blen s) + blen s.
Proof. unfold enc_leaf, enc_bytes. cbn [fst snd]. unfold blen. cbn [length]. rewrite app_length. unfold varint_size, blen. lia. Qed.
Lemma enc_all_sum {A} (f : A -> bytes) (l : list A) : blen (enc_all f l) = sum_size (fun a => blen (f a)) l.
Proof. unfold enc_all, sum_size. induction l as [|a l IH]; [reflexivity|]. cbn [map concat fold_right]. now rewrite blen_app, IH. Qed.
Lemma sum_perm {A} (f : A -> N) l l' : Permutation l l' -> sum_size f l = sum_size f l'.
Proof. unfold sum_size. induction 1; cbn [fold_right]; lia. Qed.
Lemma sum_map {A B} (f : B -> N) (g : A -> B) l : sum_size f (map g l) = sum_size (fun a => f (g a)) l.
Proof. unfold sum_size. induction l as [|a l IH]; [reflexivity|]. cbn [map fold_right]. now rewrite IH. Qed.
Lemma sum_ext {A} (f g : A -> N) l : (forall a, f a = g a) -> sum_size f l = sum_size g l.
Proof. intros H. unfold sum_size. induction l as [|a l IH]; [reflexivity|]. cbn [fold_right]. now rewrite IH, H. Qed.
Lemma tree_bytes t n : node_of (shape t) = Some n -> blen (ser_taptree n) = tree_size t.
Proof.
  intros H. rewrite ser_taptree_info, (node_of_dfs _ _ H), enc_all_sum, (sum_perm _ _ _ (dfs_can_perm (shape t) 0)).
  unfold tree_size. rewrite <- (leaves_snd t 0), sum_map, <- leaves_dfs, sum_map. apply sum_ext. intros [d l]. apply leaf_bytes.
Qed.
Lemma shape_wf (t : dtree ddkey) : Forall (fun l => blen (lf_script l) + 1 <= MAX_VALUE) (leaves t) -> wf_shape (shape t).
Proof.
  induction t as [l|l IHl r IHr]; cbn [leaves shape wf_shape]; intros H.
  - apply Forall_inv in H. split; [|split; [reflexivity|vm_compute; reflexivity]]. unfold wf_vec, U64. unfold MAX_VALUE in H. lia.
  - apply Forall_app in H as [H1 H2]. auto.
Qed.

(** ** Maps *)

Lemma in_all_keys d k : sound d -> In k (all_keys d) -> sound_key k.
Proof. intros [H _] Hk. rewrite Forall_forall in H. now apply H. Qed.
Lemma sources_wf d old : sound d -> map_of bkey wf_secp wf_keysource old ->
  map_of bkey wf_secp wf_keysource (m_extend bkey old (key_sources (all_keys d))).
Proof.
  intros Hd [Hs Hf]. apply map_forall; [now apply (m_extend_is_sorted bkey bkey_inj)|exact bkey_inj|]. intros pk src Hg.
  apply sources_extend in Hg as [(l1 & k & l2 & E & <- & <- & _)|[_ Hg]].
  - destruct (in_all_keys d k Hd) as (H1 & _ & H3); [rewrite E; apply in_elt|]. split; assumption.
  - apply (m_get_in bkey bkey_inj) in Hg. rewrite Forall_forall in Hf. now apply Hf in Hg.
Qed.

Lemma origins_wf ik tree old : sound (DscTr ik tree) -> map_of bkey wf_xonly wf_taporigin old ->
  (map_of bkey wf_xonly wf_taporigin (new_origins ik tree old) <-> origins_fit (new_origins ik tree old)).
Proof.
  intros Hd [Hs Hf]. pose proof (new_origins_sorted ik tree old Hs) as Hsort.
  assert (Hold : forall x o, m_get bkey x old = Some o -> wf_xonly x /\ wf_taporigin o).
  { intros x o Hg. apply (m_get_in bkey bkey_inj) in Hg. rewrite Forall_forall in Hf. now apply Hf in Hg. }
  assert (Hleaf : forall x h, in_leaf tree x h -> wf_bytes_n 32 h).
  { intros x h (l & k & _ & -> & _). apply tap_leaf_hash_len. }
  assert (Hall : forall x hs src, m_get bkey x (new_origins ik tree old) = Some (hs, src) ->
            wf_xonly x /\ Forall (wf_bytes_n 32) hs /\ length (ks_fp src) = 4%nat /\ Forall wf_u32 (ks_path src)).
  { intros x hs src Hg. apply new_origins_spec in Hg. inversion Hg as [hs1 E A I|hs0 hs1 src1 E G A I|hs1 src1 E G A I F]; subst.
    - destruct (in_all_keys _ ik Hd) as (_ & H2 & H3 & H4 & _); [now left|]. split; [exact H2|]. split; [|auto].
      apply Forall_forall. intros h Hh. apply I in Hh. eauto.
    - apply Hold in G as [H1 (H2 & H3 & H4 & _)]. cbn [fst snd] in *. split; [exact H1|]. split; [|auto].
      apply Forall_forall. intros h Hh. apply I in Hh as [Hh|Hh]; [|eauto]. rewrite Forall_forall in H2. auto.
    - destruct F as (l1 & k & l2 & El & Ex & Es & _). subst x src.
      destruct (in_all_keys _ k Hd) as (_ & H2 & H3 & H4 & _); [cbn [all_keys]; right; rewrite El; apply in_elt|]. split; [exact H2|]. split; [|auto].
      apply Forall_forall. intros h Hh. apply I in Hh. eauto. }
  split.
  - intros [_ Hw]. unfold origins_fit. rewrite Forall_forall in *. intros [x [hs src]] Hin. specialize (Hw _ Hin). cbn [fst snd] in *.
    apply (m_in_get bkey) in Hin; [|exact Hsort]. apply Hall in Hin as (_ & H1 & H2 & H3). now apply origin_wf.
  - intros Hfit. apply map_forall; [exact Hsort|exact bkey_inj|]. intros x [hs src] Hg.
    pose proof (m_get_in bkey bkey_inj _ _ _ Hg) as Hin. unfold origins_fit in Hfit. rewrite Forall_forall in Hfit. apply Hfit in Hin. cbn [snd] in Hin.
    apply Hall in Hg as (H0 & H1 & H2 & H3). split; [exact H0|]. now apply origin_wf.
Qed.

Lemma blen_concat (p : list bytes) : Forall (fun h => length h = 32%nat) p -> blen (concat p) = 32 * blen p.
Proof. induction 1 as [|h p H _ IH]; [reflexivity|]. cbn [concat]. rewrite blen_app, IH. unfold blen. cbn [length]. lia. Qed.
Lemma scripts_wf ik tree info old : sound (DscTr ik tree) -> fits (DscTr ik tree) -> info_of tree info ->
  map_of sk_controlblock wf_controlblock wf_leafscript old ->
  map_of sk_controlblock wf_controlblock wf_leafscript (scripts_fold (x_of ik) info (map lf_script (tr_scripts tree)) old).
Proof.
  intros Hd Hfit Hi [Hs Hf]. apply map_forall; [now apply scripts_fold_sorted|exact sk_controlblock_inj|]. intros cb [s v] Hg.
  destruct (in_all_keys _ ik Hd) as (_ & Hx & _); [now left|]. destruct Hd as [_ Hsc]. cbn [sound_scripts] in Hsc.
  pose proof (scripts_spec ik tree info old Hi) as Ha. apply (sa_new _ _ _ _ Ha) in Hg as [[-> (t & p & -> & [P _] & ->)]|[_ Hg]].
  - cbn [fits tr_scripts] in *. pose proof (path_length t s p P) as Hl. pose proof (path_hashes L t s p P) as H32. split.
    + split; [split; [reflexivity|vm_compute; reflexivity]|]. split; [exact Hx|]. cbn [cb_branch]. rewrite (blen_concat p H32). unfold blen. lia.
    + destruct (path_leaf t s p P) as (l & Hl2 & <-). split; [|split; [reflexivity|vm_compute; reflexivity]]. cbn [fst].
      rewrite Forall_forall in Hsc. now apply Hsc in Hl2.
  - apply (m_get_in sk_controlblock sk_controlblock_inj) in Hg. rewrite Forall_forall in Hf. now apply Hf in Hg.
Qed.

(** ** Items *)

Lemma program_wf v (g : bytes) : (length g <= 40)%nat -> wf_value (program_script v g).
Proof. intros H. unfold wf_value, program_script, blen, MAX_VALUE. cbn [length]. lia. Qed.
Lemma redeem_wf d : sound d -> opt_of wf_value (redeem_of d).
Proof.
  intros [_ H]. destruct d; cbn [redeem_of opt_of sound_scripts] in *; auto; apply program_wf.
  - unfold key_hash, hash160. rewrite ripemd160_len. lia.
  - rewrite sha256_len. lia.
Qed.
Lemma witness_wf d : sound d -> opt_of wf_value (witness_of d).
Proof. intros [_ H]. destruct d; cbn [witness_of opt_of sound_scripts] in *; auto. Qed.
Lemma opt_or {A} (P : A -> Prop) a b : opt_of P a -> opt_of P b -> opt_of P (match a with Some x => Some x | None => b end).
Proof. destruct a; auto. Qed.

Lemma wf_origins_fit l : map_of bkey wf_xonly wf_taporigin l -> origins_fit l.
Proof.
  intros [_ Hw]. unfold origins_fit. eapply Forall_impl; [|exact Hw]. intros [x [hs src]] [_ Ho]. cbn [fst snd] in *.
  pose proof Ho as (H1 & H2 & H3 & _). now apply origin_wf in Ho.
Qed.
Lemma input_wf d i f' : wf_input0 i -> sound d -> fits d -> new_fields d (input_fields i) f' ->
  (wf_input0 (input_with_fields f' i) <-> origins_fit (i0_tap_key_origins (input_with_fields f' i))).
Proof.
  intros W Hd Hf Hn.
  assert (Hp : f' = plain_fields d (input_fields i) ->
    (wf_input0 (input_with_fields f' i) <-> origins_fit (i0_tap_key_origins (input_with_fields f' i)))).
  { intros ->. split; [|intros _].
    - intros _. destruct W. destruct i. now apply wf_origins_fit.
    - pose proof (sources_wf d _ Hd (wi0_bip32 _ W)) as W1. pose proof (opt_or _ _ _ (redeem_wf d Hd) (wi0_redeem _ W)) as W2.
      pose proof (opt_or _ _ _ (witness_wf d Hd) (wi0_witness_script _ W)) as W3. clear -W W1 W2 W3. destruct W. destruct i. constructor; assumption. }
  destruct d as [keys s|k|k|keys s|keys s|k|keys s|ik tree]; cbn [new_fields] in Hn; [now apply Hp..|]. clear Hp.
  destruct Hn as (info & Hi & ->). pose proof (origins_wf ik tree _ Hd (wi0_tap_key_origins _ W)) as Ho.
  assert (E : i0_tap_key_origins (input_with_fields (tr_fields ik tree info (input_fields i)) i) = new_origins ik tree (i0_tap_key_origins i)) by (destruct i; reflexivity).
  rewrite E, <- Ho. split; [intros Wn; pose proof (wi0_tap_key_origins _ Wn) as G; now rewrite E in G|]. clear E Ho. intros Ho.
  pose proof (scripts_wf ik tree info _ Hd Hf Hi (wi0_tap_scripts _ W)) as W1.
  assert (W2 : wf_xonly (x_of ik)) by (destruct (in_all_keys _ ik Hd) as (_ & G & _); [now left|exact G]).
  assert (W3 : opt_of (fun h : bytes => length h = 32%nat) (tr_root tree)).
  { destruct tree as [t|]; cbn [tr_root option_map opt_of]; [now apply root_len|exact I]. }
  clear -W W1 W2 W3 Ho. destruct W. destruct i. constructor; assumption.
Qed.

Lemma output_wf d o f' : wf_output0 o -> sound d -> fits d -> new_fields d (output_fields o) f' ->
  (wf_output0 (output_with_fields f' o) <-> origins_fit (o0_tap_key_origins (output_with_fields f' o)) /\ tree_fits d).
Proof.
  intros W Hd Hf Hn.
  assert (Hp : f' = plain_fields d (output_fields o) -> tree_fits d ->
    (wf_output0 (output_with_fields f' o) <-> origins_fit (o0_tap_key_origins (output_with_fields f' o)) /\ tree_fits d)).
  { intros -> Ht. split; [|intros _].
    - intros _. split; [|exact Ht]. destruct W. destruct o. now apply wf_origins_fit.
    - pose proof (sources_wf d _ Hd (wo0_bip32 _ W)) as W1. pose proof (opt_or _ _ _ (redeem_wf d Hd) (wo0_redeem _ W)) as W2.
      pose proof (opt_or _ _ _ (witness_wf d Hd) (wo0_witness_script _ W)) as W3. clear -W W1 W2 W3. destruct W. destruct o. constructor; assumption. }
  destruct d as [keys s|k|k|keys s|keys s|k|keys s|ik tree]; cbn [new_fields] in Hn; [now apply Hp..|]. clear Hp.
  destruct Hn as (info & Hi & ->). pose proof (origins_wf ik tree _ Hd (wo0_tap_key_origins _ W)) as Ho.
  set (o' := output_with_fields (tr_fields ik tree info (output_fields o)) o).
  assert (E : o0_tap_key_origins o' = new_origins ik tree (o0_tap_key_origins o)) by (destruct o; reflexivity).
  assert (Ht : o0_tap_tree o' = match tree with Some _ => info | None => o0_tap_tree o end) by (destruct o, tree; reflexivity).
  assert (Hsz : opt_of wf_taptree (o0_tap_tree o') <-> tree_fits (DscTr ik tree)).
  { rewrite Ht. destruct tree as [t|]; cbn [tree_fits]; [|split; intros _; [exact I|exact (wo0_tap_tree _ W)]].
    destruct Hi as (n & -> & Hn). cbn [opt_of]. unfold wf_taptree. rewrite (tree_bytes t n Hn). split; [now intros [_ G]|]. intros G. split; [|exact G].
    exists (shape t). split; [|exact Hn]. apply shape_wf. now destruct Hd as [_ G2]. }
  rewrite E, <- Ho, <- Hsz.
  split; [intros Wn; split; [pose proof (wo0_tap_key_origins _ Wn) as G; now rewrite E in G|exact (wo0_tap_tree _ Wn)]|]. intros [Ho' Htt].
  assert (W2 : wf_xonly (x_of ik)) by (destruct (in_all_keys _ ik Hd) as (_ & G & _); [now left|exact G]).
  clear -W W2 Ho' Htt. subst o'. destruct W. destruct o. constructor; assumption.
Qed.

(** ** PSBTs *)

Lemma set_nth_forall {A} (P : A -> Prop) n b l : Forall P l -> (forall a, nth_error l n = Some a -> P b) -> Forall P (set_nth n b l).
Proof.
  intros H. revert n. induction H as [|a l Ha Hl IH]; intros n Hb; [destruct n; constructor|].
  destruct n as [|n]; cbn [set_nth]; constructor; auto. now apply (Hb a).
Qed.
Lemma inputs_wf p l : wf_psbt0 p -> length l = length (p0_inputs p) -> (wf_psbt0 (set_p0_inputs l p) <-> Forall wf_input0 l).
Proof.
  intros W Hl. split; [intros Wn; pose proof (wp0_inputs _ Wn) as G; now destruct p|]. intros H. destruct W. destruct p. constructor; try assumption. cbn in *. congruence.
Qed.
Lemma outputs_wf p l : wf_psbt0 p -> length l = length (p0_outputs p) -> (wf_psbt0 (set_p0_outputs l p) <-> Forall wf_output0 l).
Proof.
  intros W Hl. split; [intros Wn; pose proof (wp0_outputs _ Wn) as G; now destruct p|]. intros H. destruct W. destruct p. constructor; try assumption. cbn in *. congruence.
Qed.
Lemma set_nth_len {A} (b : A) l : forall n, length (set_nth n b l) = length l.
Proof. induction l as [|a l IH]; intros [|n]; cbn [set_nth length]; auto. Qed.

Lemma update_input_wf n d d' p p' i' : wf_psbt0 p -> update_input n d p = (p', Ok tt) -> derives d d' -> sound d' ->
  nth_error (p0_inputs p') (N.to_nat n) = Some i' ->
  (wf_psbt0 p' <-> origins_fit (i0_tap_key_origins i')).
Proof.
  intros W H Hd Hso Hi'. destruct (update_input_ok L LD n d p p' H) as (ti & i & u & d1 & f' & Hs & Hu & Hd1 & Hf & E & Hn & Ep).
  pose proof (derives_fun d d1 d' Hd1 Hd) as ->. apply spend_at_iff in Hs as [_ Hi].
  assert (Wi : wf_input0 i) by (pose proof (wp0_inputs _ W) as G; rewrite Forall_forall in G; apply G; eapply nth_error_In; exact Hi).
  pose proof (input_wf d' i f' Wi Hso Hf Hn) as Hw. set (j := input_with_fields f' i) in *.
  assert (Ep' : p0_inputs p' = set_nth (N.to_nat n) j (p0_inputs p)) by (rewrite Ep; now destruct p).
  pose proof (replaced_nth _ _ _ _ _ (set_nth_replaced (p0_inputs p) n i j Hi)) as [_ Hj]. rewrite Ep' in Hi'. assert (i' = j) by congruence. subst i'.
  rewrite <- Hw, Ep. rewrite (inputs_wf p _ W (set_nth_len _ _ _)). split.
  - intros G. rewrite Forall_forall in G. apply G. eapply nth_error_In. exact Hj.
  - intros G. apply set_nth_forall; [exact (wp0_inputs _ W)|]. auto.
Qed.
Lemma update_output_wf n d d' p p' o' : wf_psbt0 p -> update_output n d p = (p', Ok tt) -> derives d d' -> sound d' ->
  nth_error (p0_outputs p') (N.to_nat n) = Some o' ->
  (wf_psbt0 p' <-> origins_fit (o0_tap_key_origins o') /\ tree_fits d').
Proof.
  intros W H Hd Hso Hi'. destruct (update_output_ok L LD n d p p' H) as (o & u & d1 & f' & Hi & Hu & Hd1 & Hf & E & Hn & Ep).
  pose proof (derives_fun d d1 d' Hd1 Hd) as ->.
  assert (Wi : wf_output0 o) by (pose proof (wp0_outputs _ W) as G; rewrite Forall_forall in G; apply G; eapply nth_error_In; exact Hi).
  pose proof (output_wf d' o f' Wi Hso Hf Hn) as Hw. set (j := output_with_fields f' o) in *.
  assert (Ep' : p0_outputs p' = set_nth (N.to_nat n) j (p0_outputs p)) by (rewrite Ep; now destruct p).
  pose proof (replaced_nth _ _ _ _ _ (set_nth_replaced (p0_outputs p) n o j Hi)) as [_ Hj]. rewrite Ep' in Hi'. assert (o' = j) by congruence. subst o'.
  rewrite <- Hw, Ep. rewrite (outputs_wf p _ W (set_nth_len _ _ _)). split.
  - intros G. rewrite Forall_forall in G. apply G. eapply nth_error_In. exact Hj.
  - intros G. apply set_nth_forall; [exact (wp0_outputs _ W)|]. auto.
Qed.

Lemma plain_new d f f' : ~ taproot d -> new_fields d f f' -> f_tap_key_origins f' = f_tap_key_origins f.
Proof.
  intros Ht Hn. destruct d as [keys s|k|k|keys s|keys s|k|keys s|ik tree]; cbn [new_fields] in Hn; try (now rewrite Hn).
  destruct Ht. do 2 eexists. reflexivity.
Qed.
Lemma update_input_plain_wf n d d' p p' : wf_psbt0 p -> derives d d' -> sound d' -> ~ taproot d' -> update_input n d p = (p', Ok tt) -> wf_psbt0 p'.
Proof.
  intros W Hd Hso Ht H. destruct (update_input_ok L LD n d p p' H) as (ti & i & u & d1 & f' & Hs & Hu & Hd1 & Hf & E & Hn & Ep).
  pose proof (derives_fun d d1 d' Hd1 Hd) as ->. apply spend_at_iff in Hs as [_ Hi]. rewrite Ep.
  apply (inputs_wf p _ W (set_nth_len _ _ _)). apply set_nth_forall; [exact (wp0_inputs _ W)|]. intros a Ha. assert (a = i) by congruence. subst a.
  assert (Wi : wf_input0 i) by (pose proof (wp0_inputs _ W) as G; rewrite Forall_forall in G; apply G; eapply nth_error_In; exact Hi).
  apply (input_wf d' i f' Wi Hso Hf Hn). apply plain_new in Hn; [|exact Ht].
  assert (Eo : i0_tap_key_origins (input_with_fields f' i) = i0_tap_key_origins i) by (destruct i; exact Hn).
  rewrite Eo. apply wf_origins_fit. exact (wi0_tap_key_origins _ Wi).
Qed.
Lemma update_output_plain_wf n d d' p p' : wf_psbt0 p -> derives d d' -> sound d' -> ~ taproot d' -> update_output n d p = (p', Ok tt) -> wf_psbt0 p'.
Proof.
  intros W Hd Hso Ht H. destruct (update_output_ok L LD n d p p' H) as (o & u & d1 & f' & Hi & Hu & Hd1 & Hf & E & Hn & Ep).
  pose proof (derives_fun d d1 d' Hd1 Hd) as ->. rewrite Ep.
  apply (outputs_wf p _ W (set_nth_len _ _ _)). apply set_nth_forall; [exact (wp0_outputs _ W)|]. intros a Ha. assert (a = o) by congruence. subst a.
  assert (Wi : wf_output0 o) by (pose proof (wp0_outputs _ W) as G; rewrite Forall_forall in G; apply G; eapply nth_error_In; exact Hi).
  apply (output_wf d' o f' Wi Hso Hf Hn). pose proof (plain_new _ _ _ Ht Hn) as Hn'.
  assert (Eo : o0_tap_key_origins (output_with_fields f' o) = o0_tap_key_origins o) by (destruct o; exact Hn').
  rewrite Eo. split; [apply wf_origins_fit; exact (wo0_tap_key_origins _ Wi)|].
  destruct d'; cbn [tree_fits]; auto. destruct Ht. do 2 eexists. reflexivity.
Qed.

End Wf.

(** Concrete instances of [MsExt] and [MsNmExt] that satisfy [MsLaws], [MsNmLaws] and
    [KeySpendLaws], for the examples about the whole way from an unsigned transaction to a signed one.
    They model no code of /repo: [key_ms] is [toy_ms0] (MsInstance0.v) with an interpreter that knows
    all outputs of single keys; the interpreter of rust-miniscript is called at
    src/v0/miniscript/finalizer.rs:300-340. *)
From Verif Require Import Base OMap Consensus Ext ExtInstance Serialize SerializeFacts MapCodec Script V2Sign SignInstance SpecSign V2Finalize SpecFinalize
  V2SpendFacts MsInstance V0Sign SchnorrInstance V0Finalize SpecFinalize0 MsInstance0 V0Update SpecUpdate0 SpecWorkflow0 V2SignFacts V2RolesFacts V0UpdateSignFacts.
Local Open Scope N_scope.

Lemma tests_pkh h : length h = 20%nat -> let s := p2pkh_script h in
  is_p2tr s = false /\ is_p2wpkh s = false /\ is_p2sh s = false /\ is_p2pkh s = true /\ firstn 20 (skipn 3 s) = h.
Proof.
  intros H. do 20 (destruct h as [|? h]; [discriminate H|]). destruct h; [|discriminate H]. repeat split; reflexivity.
Qed.
Lemma tests_wpkh h : length h = 20%nat -> let s := program_script 0 h in is_p2tr s = false /\ is_p2wpkh s = true /\ skipn 2 s = h /\ blen s = 22.
Proof.
  intros H. do 20 (destruct h as [|? h]; [discriminate H|]). destruct h; [|discriminate H]. repeat split; reflexivity.
Qed.
Lemma tests_sh h : length h = 20%nat -> let s := p2sh_script h in is_p2tr s = false /\ is_p2wpkh s = false /\ is_p2sh s = true.
Proof.
  intros H. do 20 (destruct h as [|? h]; [discriminate H|]). destruct h; [|discriminate H]. repeat split; reflexivity.
Qed.

Section Spend.
Context `{X : Ext} {L : ExtLaws X} `{T : SchnorrExt}.
Context (fallback : bytes -> bytes -> witness -> N -> N -> tx -> N -> list txout -> interp).
(** The one way to spend an output of a single key. *)
Lemma key_spend_of d k s ss w : single d k -> wf_pubkey (fst k) -> key_spend (fst k) s (spk_of d) ss w ->
  match d with
  | DscPkh _ => ss = (n2b (blen (ser_esig s)) :: ser_esig s) ++ n2b (blen (ser_pubkey (fst k))) :: ser_pubkey (fst k) /\ w = []
  | DscWpkh _ => ss = [] /\ w = [ser_esig s; ser_pubkey (fst k)]
  | _ => let prog := program_script 0 (key_hash k) in ss = n2b (blen prog) :: prog /\ w = [ser_esig s; ser_pubkey (fst k)]
  end.
Proof.
  intros Hd Hk H. pose proof (ser_pubkey_length _ Hk) as Hl.
  assert (Hb : b2n (n2b (blen (ser_pubkey (fst k)))) = blen (ser_pubkey (fst k))) by (apply b2n_n2b; unfold blen; lia).
  remember (spk_of d) as spk eqn:Es. assert (Hhd : forall b, hd x00 spk = b -> b2n (hd x00 spk) = b2n b) by (intros b ->; reflexivity).
  destruct Hd as [->|[[->| ->] _]]; cbn [spk_of] in Es; destruct H as [ss E|ss E|Hc|prog Hc Ep].
  - specialize (Hhd x76). rewrite Es in Hhd at 1. specialize (Hhd eq_refl). cbn [hd] in Hhd. change (b2n x76) with 118 in Hhd. unfold blen in *. lia.
  - auto.
  - discriminate (f_equal (hd x00) Es).
  - discriminate (f_equal (hd x00) Es).
  - specialize (Hhd x00). rewrite Es in Hhd at 1. specialize (Hhd eq_refl). cbn [hd] in Hhd. change (b2n x00) with 0 in Hhd. unfold blen in *. lia.
  - discriminate (f_equal (hd x00) Es).
  - auto.
  - discriminate (f_equal (hd x00) Es).
  - specialize (Hhd xa9). rewrite Es in Hhd at 1. specialize (Hhd eq_refl). cbn [hd] in Hhd. change (b2n xa9) with 169 in Hhd. unfold blen in *. lia.
  - discriminate (f_equal (hd x00) Es).
  - discriminate (f_equal (hd x00) Es).
  - subst prog. split; reflexivity.
Qed.
Context `{S : SignExt}.
Lemma digest_pkh k t n a ty : digest_for (DscPkh k) t n a ty = legacy_digest t n (p2pkh_script (key_hash k)) ty.
Proof. reflexivity. Qed.
Lemma digest_wpkh k t n a ty : digest_for (DscWpkh k) t n a ty = segwit_digest t n (p2pkh_script (key_hash k)) a ty.
Proof. reflexivity. Qed.
Lemma digest_sh_wpkh k t n a ty : digest_for (DscShWpkh k) t n a ty = segwit_digest t n (p2pkh_script (key_hash k)) a ty.
Proof. reflexivity. Qed.
Lemma spk_pkh k : spk_of (DscPkh k) = p2pkh_script (key_hash k).
Proof. reflexivity. Qed.
Lemma spk_wpkh k : spk_of (DscWpkh k) = program_script 0 (key_hash k).
Proof. reflexivity. Qed.
Lemma spk_sh_wpkh k : spk_of (DscShWpkh k) = p2sh_script (hash160 (program_script 0 (key_hash k))).
Proof. reflexivity. Qed.

Definition good (b : bool) : interp := if b then IOk else ISatisfaction.
(** The serialized signature and key spend an output of the hash; [m] is the message by sighash type. *)
Definition key_check (h : bytes) (m : N -> bytes) (sg pk : bytes) : interp :=
  match de_esig sg, de_pubkey pk with
  | Ok s, Ok k => good (bytes_eqb (hash160 pk) h && verify_ecdsa (pub_inner k) (m (es_type s)) (es_der s))
  | _, _ => ISatisfaction
  end.
(** Two pushes of less than 76 bytes. *)
Definition two_pushes (ss : bytes) : option (bytes * bytes) :=
  match ss with
  | a :: r =>
      match take (b2n a) r with
      | Some (sg, b :: pk) => if (b2n b =? blen pk) && (b2n a <? 76) && (b2n b <? 76) then Some (sg, pk) else None
      | _ => None
      end
  | [] => None
  end.
Definition key_interpret (spk ss : bytes) (w : witness) (csv cltv : N) (t : tx) (n : N) (us : list txout) : interp :=
  match nth_error us (N.to_nat n) with
  | None => IConstructor
  | Some u =>
      let wpkh (prog : bytes) :=
        match w with
        | [sg; pk] => key_check (skipn 2 prog) (segwit_digest t n (p2pkh_script (skipn 2 prog)) (to_value u)) sg pk
        | _ => IConstructor
        end in
      if is_p2tr spk then
        match w with
        | [sg] =>
            match de_tsig sg with
            | Ok g => good (verify_schnorr (skipn 2 spk) (key_message t n us u (ts_type g)) (ts_sig g)
                            && implb (N.land (ts_type g) 3 =? 3) (n <? blen (tx_output t)))
            | _ => IConstructor
            end
        | _ => IConstructor
        end
      else if is_p2wpkh spk && is_empty ss then wpkh spk
      else if is_p2sh spk && is_p2wpkh (tl ss) && bytes_eqb ss (push_slice (tl ss)) then
        if bytes_eqb spk (p2sh_script (hash160 (tl ss))) then wpkh (tl ss) else IConstructor
      else if is_p2pkh spk && is_empty w then
        match two_pushes ss with
        | Some (sg, pk) => key_check (firstn 20 (skipn 3 spk)) (legacy_digest t n spk) sg pk
        | None => IConstructor
        end
      else fallback spk ss w csv cltv t n us
  end.

Lemma key_check_ok k s m : wf_pubkey k -> wf_esig s -> verify_ecdsa (pub_inner k) (m (es_type s)) (es_der s) = true ->
  key_check (hash160 (ser_pubkey k)) m (ser_esig s) (ser_pubkey k) = IOk.
Proof.
  intros Hk Hs Hv. unfold key_check. rewrite (co_rt _ _ _ _ esig_codec s Hs), (co_rt _ _ _ _ (pubkey_codec 65 ltac:(lia)) k Hk).
  rewrite bytes_eqb_refl. cbn [andb]. rewrite Hv. reflexivity.
Qed.
Lemma two_pushes_ok a b : (length a < 76)%nat -> (length b < 76)%nat -> two_pushes ((n2b (blen a) :: a) ++ n2b (blen b) :: b) = Some (a, b).
Proof.
  intros Ha Hb. cbn [app two_pushes]. rewrite !b2n_n2b by (unfold blen; lia). rewrite take_app, !b2n_n2b by (unfold blen; lia). rewrite N.eqb_refl.
  replace (blen a <? 76) with true by (unfold blen; lia). replace (blen b <? 76) with true by (unfold blen; lia). reflexivity.
Qed.

(** The laws hold. *)
Lemma interpret_key_ok d k s ss w t n us u sequence lock :
    single d k -> wf_pubkey (fst k) -> wf_esig s -> key_spend (fst k) s (spk_of d) ss w ->
    n < blen (tx_input t) -> length us = length (tx_input t) ->
    nth_error us (N.to_nat n) = Some u -> to_script u = spk_of d ->
    verify_ecdsa (pub_inner (fst k)) (digest_for d t n (to_value u) (es_type s)) (es_der s) = true ->
    key_interpret (spk_of d) ss w sequence lock t n us = IOk.
Proof.
  intros Hd Hk Hs H Hn Hl Hu Eu Hv. apply (key_spend_of d k s ss w Hd Hk) in H.
    unfold key_interpret. rewrite Hu. pose proof (ser_pubkey_length _ Hk) as Hlk. pose proof (ser_esig_length _ Hs) as Hls.
    assert (Hh : length (key_hash k) = 20%nat) by apply hash160_length.
    pose proof (fun m => key_check_ok (fst k) s m Hk Hs) as Hc'. fold (key_hash k) in Hc'.
    destruct Hd as [->|[[->| ->] Hc]]; rewrite ?digest_pkh, ?digest_wpkh, ?digest_sh_wpkh in Hv; rewrite ?spk_pkh, ?spk_wpkh, ?spk_sh_wpkh; destruct H as [-> ->]; clear Eu.
    + destruct (tests_pkh _ Hh) as (-> & -> & -> & -> & ->). cbn [andb is_empty]. rewrite two_pushes_ok by lia. now apply Hc'.
    + destruct (tests_wpkh _ Hh) as (-> & -> & -> & _). cbn [andb is_empty]. now apply Hc'.
    + destruct (tests_wpkh _ Hh) as (_ & Ew & Esk & Eb). set (prog := program_script 0 (key_hash k)) in *.
      destruct (tests_sh (hash160 prog) (hash160_length _)) as (-> & -> & ->). cbn [andb is_empty tl]. rewrite Ew.
      rewrite push_short by (unfold blen in Eb; lia). rewrite !bytes_eqb_refl. cbn [andb]. rewrite Esk. now apply Hc'.
Qed.
Lemma interpret_taproot_ok x g t n us u sequence lock :
    wf_tsig g -> n < blen (tx_input t) -> length us = length (tx_input t) ->
    nth_error us (N.to_nat n) = Some u -> p2tr_key (to_script u) x ->
    (In (ts_type g) [0x03; 0x83] -> n < blen (tx_output t)) ->
    verify_schnorr x (key_message t n us u (ts_type g)) (ts_sig g) = true ->
    key_interpret (to_script u) [] [ser_tsig g] sequence lock t n us = IOk.
Proof.
  intros Hg Hn Hl Hu Hx Hs Hv. unfold key_interpret. rewrite Hu.
    assert (Ht : is_p2tr (to_script u) = true) by (apply is_p2tr_iff; eauto). rewrite Ht, (co_rt _ _ _ _ tsig_codec g Hg).
    destruct Hx as [[-> _] _]. change (skipn 2 (program_script 1 x)) with x. rewrite Hv. cbn [andb].
    destruct (N.land (ts_type g) 3 =? 3) eqn:E; [|reflexivity]. cbn [implb]. replace (n <? blen (tx_output t)) with true; [reflexivity|].
    symmetry. apply N.ltb_lt. apply Hs. destruct Hg as [_ Hg]. unfold tap_sighash_std, ecdsa_sighash_std in Hg.
    cbn [In]. repeat (apply orb_prop in Hg as [Hg|Hg]); apply N.eqb_eq in Hg; rewrite Hg in *; (discriminate E || auto).
Qed.
End Spend.

#[local] Existing Instance toy | 100.
#[local] Existing Instance toy_sign | 100.
#[local] Existing Instance toy_schnorr | 100.

Definition key_ms : MsExt := {|
  ms := ms (MsExt := toy_ms0);
  ms_parse := ms_parse (MsExt := toy_ms0);
  ms_substitute := ms_substitute (MsExt := toy_ms0);
  ms_substitute_tap := ms_substitute_tap (MsExt := toy_ms0);
  ms_encode := ms_encode (MsExt := toy_ms0);
  ms_top_level := ms_top_level (MsExt := toy_ms0);
  ms_satisfy := ms_satisfy (MsExt := toy_ms0);
  ms_script_sig := ms_script_sig (MsExt := toy_ms0);
  ms_interpret := key_interpret toy_interpret0
|}.
Definition key_nm : MsNmExt key_ms := {| ms_satisfy_nm := ms_satisfy_nm (M := toy_ms0) (MsNmExt := toy_nm) : msctx -> @ms key_ms -> satisfier -> option (list bytes) |}.

#[global] Instance key_ms_laws : MsLaws toy key_ms.
Proof.
  constructor.
  - exact (ms_parse_encode (MsLaws := toy_ms0_laws)).
  - exact (ms_substitute_encode (MsLaws := toy_ms0_laws)).
  - exact (ms_substitute_tap_encode (MsLaws := toy_ms0_laws)).
  - exact (ms_script_sig_push (MsLaws := toy_ms0_laws)).
  - exact (ms_script_sig_last (MsLaws := toy_ms0_laws)).
Qed.
#[global] Instance key_nm_laws : MsNmLaws key_ms key_nm.
Proof.
  constructor.
  - exact (ms_nm_found (MsNmLaws := toy_nm_laws)).
  - exact (ms_bare_signed (MsNmLaws := toy_nm_laws)).
  - exact (ms_bare_items (MsNmLaws := toy_nm_laws)).
  - exact (ms_bare_items_nm (MsNmLaws := toy_nm_laws)).
  - exact (ms_script_sig_items (MsNmLaws := toy_nm_laws)).
Qed.

#[global] Instance key_spend_laws : KeySpendLaws toy toy_sign toy_schnorr key_ms.
Proof.
  constructor; [exact (interpret_key_ok toy_interpret0)|exact (interpret_taproot_ok toy_interpret0)|].
  intros m k. cbn [toy_sign sign_ecdsa]. unfold toy_sig. cbn [length]. unfold toy_hash. rewrite le_enc_length. lia.
Qed.

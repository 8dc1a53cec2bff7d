(** A concrete instance of [SchnorrExt] that satisfies [SchnorrLaws] for [toy_sign].  It is used
    by the examples and shows that the laws are consistent.  It models no code of /repo: the
    functions are toy replacements for those called at src/v0/bitcoin/mod.rs:447-484 and
    602-611. *)
From Verif Require Import Base Consensus Ext ExtInstance Serialize V2Sign SignInstance V0Sign.
Local Open Scope N_scope.

(** Stand-in for the serialization of the outputs spent (src/v0/bitcoin/mod.rs:590-600), with
    ANYONECANPAY of the one with the given index. *)
Definition toy_prevouts (index ty : N) (p : prevouts) : bytes :=
  let out u := le_enc 8 (to_value u) ++ le_enc 8 (blen (to_script u)) ++ to_script u in
  match p with
  | PrevoutsOne _ u => x01 :: out u
  | PrevoutsAll l =>
      if 128 <=? ty then match nth_error l (N.to_nat index) with Some u => x01 :: out u | None => [x03] end
      else x02 :: flat_map out l
  end.
(** Stand-in for an optional hash: merkle root or leaf hash (src/v0/bitcoin/mod.rs:447, 602). *)
Definition toy_opt (h : option bytes) : bytes := match h with Some b => x01 :: b | None => [x00] end.
Definition toy_schnorr_sig (x m : bytes) : bytes := toy_hash 64 47 (x ++ m).

(** The instance; the call sites are cited at the fields of [SchnorrExt] (V0Sign.v). *)
Definition toy_schnorr : SchnorrExt := {|
  taproot_digest := fun t n prev leaf ty =>
    toy_hash 32 53 (enc_tx_nowit t ++ le_enc 8 n ++ toy_prevouts n ty prev ++ toy_opt leaf ++ le_enc 4 ty);
  tweak_secret := fun k r => k ++ toy_opt r;
  sign_schnorr := fun m k => toy_schnorr_sig (xonly_of (toy_pubkey k)) m;
  verify_schnorr := fun x m s => bytes_eqb s (toy_schnorr_sig x m);
  output_key := fun x r => toy_hash 32 (le_dec x) (toy_opt r)
|}.

Lemma mix_lt b : forall s, s < 2 ^ 64 -> mix s b < 2 ^ 64.
Proof.
  unfold mix. induction b as [|x b IH]; intros s H; cbn [fold_left]; [exact H|]. apply IH.
  change 18446744073709551615 with (N.ones 64). rewrite N.land_ones. apply N.mod_lt. discriminate.
Qed.
#[global] Instance toy_schnorr_laws : SchnorrLaws toy_sign toy_schnorr.
Proof.
  constructor; cbn [toy_sign toy_schnorr secret_pubkey sign_schnorr verify_schnorr tweak_secret output_key].
  - intros m k. unfold toy_schnorr_sig, toy_hash. apply le_enc_length.
  - intros m k. apply bytes_eqb_refl.
  - intros k r. unfold xonly_of, toy_pubkey, toy_hash. cbn [tl]. f_equal. rewrite le_dec_enc.
    + unfold mix. now rewrite fold_left_app.
    + pose proof (mix_lt k 29 eq_refl) as H. eapply N.lt_trans; [exact H|]. reflexivity.
Qed.

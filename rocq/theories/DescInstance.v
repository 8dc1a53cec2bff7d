(** A concrete instance of [DescExt], and [DescLaws] for [toy_schnorr].  They are used by the examples
    and show that the laws are consistent.  They model no code of /repo: the function is a toy
    replacement for the one reached from src/v0/miniscript/mod.rs:1131. *)
From Verif Require Import Base Consensus Ext ExtInstance Serialize V0Sign SchnorrInstance V0Update.
Local Open Scope N_scope.

Definition toy_desc : DescExt := {| output_parity := fun k r => N.odd (mix 7 (k ++ toy_opt r)) |}.
#[global] Instance toy_desc_laws : DescLaws toy_schnorr.
Proof. constructor. intros k r. unfold output_key, toy_schnorr, toy_hash. apply le_enc_length. Qed.
#[global] Instance toy_anyone : AnyoneLaws toy_schnorr.
Proof.
  constructor. intros t n us u leaf ty Hty Hn. unfold taproot_digest, toy_schnorr, toy_prevouts. rewrite Hn.
  replace (128 <=? ty) with true by (cbn [In] in Hty; lia). reflexivity.
Qed.

(** Specification of signers of whom each has the keys of some inputs (BIP-174: several signers),
    independent of the code's helpers. *)
From Verif Require Import Base OMap Consensus Ext Serialize V2Sign SpecSign V2Finalize SpecFinalize V0Input V0Psbt V0Sign SpecSign0 V0Update SpecUpdate0 SpecWorkflow0.
Local Open Scope N_scope.

Section Team.
Context `{X : Ext} `{S : SignExt} `{T : SchnorrExt} `{D : DescExt}.

(** The signer does not have the private key. *)
Inductive unable (prov : provider) : descr ddkey -> Prop :=
| UnEcdsa d k : single d k -> (forall sk, ~ has_key prov (pub_inner (fst k)) (snd k) sk) -> unable prov d
| UnTaproot k : (forall sk, prov (KRBip32 (snd k)) <> inr (Some sk)) -> unable prov (DscTr k None).
(** Every signer has the key or not, and one has it. *)
Definition team_for (ks : list provider) (d : descr ddkey) : Prop :=
  (exists k, In k ks /\ signable k d) /\ forall k, In k ks -> signable k d \/ unable k d.

End Team.

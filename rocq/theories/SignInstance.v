(** A concrete instance of [SignExt] that satisfies [SignLaws].  It is used by the examples and
    shows that the laws are consistent.  It models no code of /repo: the functions are toy
    replacements for the hash and signature functions called at src/v2/mod.rs:803-870. *)
From Verif Require Import Base Consensus Ext ExtInstance Serialize V2Sign.
Local Open Scope N_scope.

(** Stand-in for [bip32::Xpriv] (src/v2/mod.rs:1031): seed, path and parent fingerprint. *)
Record toy_xprv := ToyXprv { tx_seed : bytes; tx_path : list N; tx_parent : bytes }.
Definition toy_fp (seed : bytes) (path : list N) : bytes := toy_hash 4 23 (seed ++ concat (map (le_enc 4) path)).
Definition toy_pubkey (k : bytes) : bytes := x02 :: toy_hash 32 29 k.
Definition toy_sig (pk m : bytes) : bytes := x30 :: toy_hash 32 31 (pk ++ m).

(** The instance; the call sites are cited at the fields of [SignExt] (V2Sign.v). *)
Definition toy_sign : SignExt := {|
  legacy_digest := fun t n s ty => toy_hash 32 37 (enc_tx_nowit t ++ le_enc 8 n ++ s ++ le_enc 4 ty);
  segwit_digest := fun t n s v ty => toy_hash 32 41 (enc_tx_nowit t ++ le_enc 8 n ++ s ++ le_enc 8 v ++ le_enc 4 ty);
  sign_ecdsa := fun m k => toy_sig (toy_pubkey k) m;
  verify_ecdsa := fun pk m s => bytes_eqb s (toy_sig pk m);
  secret_pubkey := toy_pubkey;
  xprv := toy_xprv;
  xprv_fingerprint := fun x => toy_fp (tx_seed x) (tx_path x);
  xprv_parent_fingerprint := tx_parent;
  xprv_derive := fun x path =>
    let up := tx_path x ++ removelast path in
    Some (match path with [] => x | _ => ToyXprv (tx_seed x) (tx_path x ++ path) (toy_fp (tx_seed x) up) end);
  xprv_to_priv := fun x => PrivKey true (toy_hash 32 43 (tx_seed x ++ concat (map (le_enc 4) (tx_path x))))
|}.

#[global] Instance toy_sign_laws : SignLaws toy toy_sign.
Proof.
  constructor; cbn [toy toy_sign secret_pubkey sign_ecdsa verify_ecdsa der_parse].
  - intros k. unfold wf_secp. cbn [toy secp_parse]. apply toy_parse_fix; [|reflexivity].
    unfold toy_pubkey. cbn [length]. unfold toy_hash. now rewrite le_enc_length.
  - intros m k. unfold toy_der, toy_sig. cbn [length hd]. unfold toy_hash. rewrite le_enc_length. reflexivity.
  - intros m k. now apply bytes_eqb_eq.
Qed.

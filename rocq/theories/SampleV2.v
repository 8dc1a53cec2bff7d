(** A PSBT used by the examples beside the theorems about src/v2. *)
From Verif Require Import Base OMap Consensus Ext ExtInstance Raw TapTree Serialize MapCodec
  V2Global V2Input V2Output V2Psbt.
Local Open Scope N_scope.

(** Pair and key constructors of src/raw.rs:33-60. *)
Definition pr (t : byte) (kd v : bytes) : pair := Pair (Key t kd) v.

(** Little-endian 32-bit value. *)
Definition le4 (n : N) : bytes := le_enc 4 n.
Definition txid_a : bytes := repeat x11 32.
Definition txid_b : bytes := repeat x22 32.
Definition pk_a : bytes := x02 :: repeat xaa 32.
Definition pk_b : bytes := x03 :: repeat xbb 32.
Definition p2wpkh_a : bytes := [x00; x14] ++ repeat x01 20.
(** Preimage of the examples and its SHA-256 under [toy]. *)
Definition pre_a : bytes := [x01; x02; x03].
Definition xonly_a : bytes := repeat xcc 32.

(** Global map: version 2, transaction version 2, lock time 7, two inputs, two outputs,
    all modifiable, one proprietary pair and one unknown pair. *)
Definition sample_global : list pair :=
  [pr xfb [] (le4 2); pr x02 [] (le4 2); pr x03 [] (le4 7); pr x04 [] [x02]; pr x05 [] [x02];
   pr x06 [] [x03]; pr xfc [x02; x61; x62; x05; x09] [x0a; x0b]; pr xf0 [x01] [x02; x03]].

Definition sample_input_a : list pair :=
  [pr x0e [] txid_a; pr x0f [] (le4 1); pr x01 [] (le_enc 8 5000 ++ [x16] ++ p2wpkh_a);
   pr x02 pk_a ([x30; x01] ++ [x01]); pr x06 pk_a (le4 9 ++ le4 1);
   pr x0b (@sha256 toy pre_a) pre_a; pr xf1 [] [x09]].
Definition sample_input_b : list pair :=
  [pr x10 [] (le4 10); pr x0f [] (le4 0); pr x0e [] txid_b; pr x12 [] (le4 77);
   pr x01 [] (le_enc 8 7000 ++ [x16] ++ p2wpkh_a); pr x06 pk_b (le4 9)].
Definition sample_output_a : list pair :=
  [pr x03 [] (le_enc 8 4000); pr x04 [] p2wpkh_a; pr x02 pk_b (le4 9 ++ le4 1 ++ le4 2)].
(** An output with a taproot tree of two leaves. *)
Definition sample_output_b : list pair :=
  [pr x03 [] (le_enc 8 6000); pr x04 [] ([x51; x20] ++ xonly_a); pr x05 [] xonly_a;
   pr x06 [] [x01; xc0; x01; x51; x01; xc0; x01; x52]; pr xf2 [x00] []].

Definition sample_of (g : list pair) (is os : list (list pair)) : bytes :=
  [x70; x73; x62; x74; xff] ++ ser_pairs g ++ concat (map ser_pairs is) ++ concat (map ser_pairs os).
Definition sample_bytes : bytes :=
  sample_of sample_global [sample_input_a; sample_input_b] [sample_output_a; sample_output_b].

(** The decoded sample (src/v2/mod.rs:614-654). *)
Definition empty_psbt : psbt :=
  Psbt (Global 2 2 None 0 0 0 [] [] [] [] []) [] [].
Definition sample_in (X : Ext) (C : Cfg) : psbt :=
  match psbt_deserialize sample_bytes with Ok p => p | _ => empty_psbt end.
Definition sample : psbt := sample_in toy (cfg_of false false).

Lemma sample_decodes : @psbt_deserialize toy (cfg_of false false) sample_bytes = Ok sample.
Proof. vm_compute. reflexivity. Qed.

(** A PSBT used by the examples beside the theorems about src/v0. *)
From Verif Require Import Base OMap Consensus Ext ExtInstance Raw TapTree Serialize MapCodec
  V2Global V2Psbt SampleV2 V0Error V0Input V0Output V0Psbt.
Local Open Scope N_scope.

(** The transaction of the sample: two inputs, two outputs, lock time 7
    (src/v0/bitcoin/mod.rs:45). *)
Definition sample0_tx : tx :=
  Tx 2 7 [TxIn txid_a 1 [] 4294967293 []; TxIn txid_b 0 [] 4294967295 []]
     [TxOut 4000 p2wpkh_a; TxOut 6000 ([x51; x20] ++ xonly_a)].

(** A 78-byte extended public key with 02... as key. *)
Definition xpub_a : bytes := [x04; x88; xb2; x1e; x00] ++ repeat x00 8 ++ repeat x07 32 ++ pk_a.

Definition sample0_global : list pair :=
  [pr xfb [] (le4 0); pr xfc [x02; x61; x62; x05; x09] [x0a; x0b]; pr x00 [] (enc_tx_nowit sample0_tx);
   pr x01 xpub_a (le4 9 ++ le4 1); pr xf0 [x01] [x02; x03]].
(** A previous transaction with one output of 7000. *)
Definition prev0 : tx := Tx 2 0 [TxIn txid_a 0 [x51] 0 []] [TxOut 7000 p2wpkh_a].
Definition sample0_input_a : list pair :=
  [pr x01 [] (le_enc 8 5000 ++ [x16] ++ p2wpkh_a);
   pr x02 pk_a ([x30; x01] ++ [x01]); pr x06 pk_a (le4 9 ++ le4 1);
   pr x0b (@sha256 toy pre_a) pre_a; pr xf1 [] [x09]].
Definition sample0_input_b : list pair :=
  [pr x07 [] [x51; x52]; pr x00 [] (enc_tx prev0); pr x06 pk_b (le4 9); pr x08 [] [x01; x02; x03; x04]].
Definition sample0_output_a : list pair := [pr x02 pk_b (le4 9 ++ le4 1 ++ le4 2)].
(** An output with a taproot tree of two leaves. *)
Definition sample0_output_b : list pair :=
  [pr x05 [] xonly_a; pr x06 [] [x01; xc0; x01; x51; x01; xc0; x01; x52]; pr xf2 [x00] []].

Definition sample0_bytes : bytes :=
  sample_of sample0_global [sample0_input_a; sample0_input_b] [sample0_output_a; sample0_output_b].

(** The decoded sample (src/v0/bitcoin/serialize.rs:70-112). *)
Definition sample0_in (X : Ext) : psbt0 :=
  match psbt0_deserialize sample0_bytes with Ok p => p | _ => Psbt0 sample0_tx 0 [] [] [] [] [] end.
Definition sample0 : psbt0 := sample0_in toy.

Lemma sample0_decodes : @psbt0_deserialize toy sample0_bytes = Ok sample0.
Proof. vm_compute. reflexivity. Qed.

(** Specification of finalization (BIP-174, BIP-370), independent of the code's helpers. *)
From Verif Require Import Base OMap Consensus Ext Raw TapTree Serialize V2Global V2Input V2Output V2Psbt V2Roles SpecRoles V2Sign SpecSign V2Finalize.
Local Open Scope N_scope.

(** Facts about rust-miniscript that some theorems need. *)
Class MsLaws (X : Ext) (M : MsExt) : Prop := {
  (** A script is the encoding of the miniscript it parses to. *)
  ms_parse_encode : forall c b m, ms_parse c b = Some m -> ms_encode m = b;
  (** Naming the keys of hashes does not change the script. *)
  ms_substitute_encode : forall l m,
    (forall h k, In (h, k) l -> h = hash160 (ser_pubkey k)) -> ms_encode (ms_substitute l m) = ms_encode m;
  ms_substitute_tap_encode : forall l m,
    (forall h k, In (h, k) l -> h = hash160 k) -> ms_encode (ms_substitute_tap l m) = ms_encode m;
  (** Items of a script sig that are no numbers are pushed. *)
  ms_script_sig_push : forall b, (4 < length b < 76)%nat -> ms_script_sig [b] = n2b (blen b) :: b;
  (** The last item of a script sig is pushed, or is a number. *)
  ms_script_sig_last : forall l b, (4 < length b <= 520)%nat -> exists s, ms_script_sig (l ++ [b]) = s ++ push_slice b
}.

Section Finalize.
Context `{X : Ext} `{C : Cfg} `{S : SignExt} `{M : MsExt}.

(** ** Time locks *)

(** BIP-65: the lock time of a transaction satisfies a required one. *)
Definition bip65 (required lock : N) : Prop :=
  (required < 500000000 <-> lock < 500000000) /\ required <= lock.
(** BIP-68, BIP-112: a sequence number satisfies a required relative lock. *)
Definition bip112 (required : rellock) (sequence : N) : Prop :=
  sequence < 2 ^ 31 /\
  match required with
  | RBlocks n => (sequence / 2 ^ 22) mod 2 = 0 /\ n <= sequence mod 2 ^ 16
  | RTime n => (sequence / 2 ^ 22) mod 2 = 1 /\ n <= sequence mod 2 ^ 16
  end.

(** ** Finalized inputs *)

(** [i'] keeps the outpoint and the utxos of [i], has the given final fields and nothing else. *)
Record final_input (ss : bytes) (w : option witness) (i i' : input) : Prop := {
  fi_txid : in_previous_txid i' = in_previous_txid i;
  fi_index : in_spent_output_index i' = in_spent_output_index i;
  fi_non_witness_utxo : in_non_witness_utxo i' = in_non_witness_utxo i;
  fi_witness_utxo : in_witness_utxo i' = in_witness_utxo i;
  fi_script_sig : in_final_script_sig i' = Some ss;
  fi_witness : in_final_script_witness i' = w;
  fi_locks : in_sequence i' = None /\ in_min_time i' = None /\ in_min_height i' = None;
  fi_ecdsa : in_partial_sigs i' = [] /\ in_sighash_type i' = None /\ in_redeem_script i' = None
             /\ in_witness_script i' = None /\ in_bip32_derivations i' = [];
  fi_preimages : in_ripemd160_preimages i' = [] /\ in_sha256_preimages i' = []
                 /\ in_hash160_preimages i' = [] /\ in_hash256_preimages i' = [];
  fi_tap : in_tap_key_sig i' = None /\ in_tap_script_sigs i' = [] /\ in_tap_scripts i' = []
           /\ in_tap_key_origins i' = [] /\ in_tap_internal_key i' = None /\ in_tap_merkle_root i' = None;
  fi_sp : in_sp_ecdh_shares i' = [] /\ in_sp_dleq_proofs i' = [];
  fi_other : in_proprietaries i' = [] /\ in_unknowns i' = []
}.

(** The final fields found for an input. *)
Definition computed (p : psbt) (i : input) (ss : bytes) (w : witness) : Prop :=
  final_script_sig_and_witness (p_inputs p) i = Ok (ss, w).
(** The input can be finalized, respectively not. *)
Definition finalizes (p : psbt) (i : input) : Prop := exists i', finalize_input (p_inputs p) i = Ok i'.
Definition fails_with (p : psbt) (i : input) (e : fininputerr) : Prop := finalize_input (p_inputs p) i = Err e.

(** A value of the type Finalizer. *)
Definition finalizer_value (p : psbt) : Prop := finalizer_new p = Ok p.

(** The transaction with all sequences and the lock time replaced. *)
Definition relocked (sequence lock : N) (t : tx) : tx :=
  Tx (tx_version t) lock
     (map (fun i => TxIn (ti_txid i) (ti_vout i) (ti_script_sig i) sequence (ti_witness i)) (tx_input t))
     (tx_output t).

(** The lock time of a PSBT none of whose inputs requires one. *)
Definition fallback_lock (p : psbt) : N :=
  match g_fallback_lock_time (p_global p) with Some n => n | None => 0 end.

(** The outputs spent. *)
Definition spends (l : list input) (us : list txout) : Prop := Forall2 funds l us.

(** ** Single keys *)

(** Script sig and witness that spend an output of a single key with a signature (BIP-141). *)
Inductive key_spend (k : pubkey) (s : esig) : bytes -> bytes -> witness -> Prop :=
| KSPk ss : 
    ss = n2b (blen (ser_esig s)) :: ser_esig s ->
    key_spend k s (n2b (blen (ser_pubkey k)) :: ser_pubkey k ++ [xac]) ss []
| KSPkh ss :
    ss = (n2b (blen (ser_esig s)) :: ser_esig s) ++ n2b (blen (ser_pubkey k)) :: ser_pubkey k ->
    key_spend k s (p2pkh_script (hash160 (ser_pubkey k))) ss []
| KSWpkh :
    pub_compressed k = true ->
    key_spend k s (program_script 0 (hash160 (ser_pubkey k))) [] [ser_esig s; ser_pubkey k]
| KSShWpkh prog :
    pub_compressed k = true ->
    prog = program_script 0 (hash160 (ser_pubkey k)) ->
    key_spend k s (p2sh_script (hash160 prog)) (n2b (blen prog) :: prog) [ser_esig s; ser_pubkey k].

(** The output belongs to a single key: pay to public key, to its hash, to its witness hash, the
    last also nested in a script hash with a given redeem script. *)
Inductive single_key (redeem : option bytes) : bytes -> Prop :=
| SKPk k : length k = 33%nat \/ length k = 65%nat -> single_key redeem (n2b (blen k) :: k ++ [xac])
| SKPkh h : length h = 20%nat -> single_key redeem (p2pkh_script h)
| SKWpkh h : length h = 20%nat -> single_key redeem (program_script 0 h)
| SKShWpkh h h' : length h = 20%nat -> redeem = Some (program_script 0 h') -> length h' = 20%nat ->
    single_key redeem (p2sh_script h).

(** ** Witness sizes *)

(** Size of a witness on the wire. *)
Definition wire_size (w : witness) : N := blen (enc_witness w).
(** The bytes that the length prefixes of the items take. *)
Definition prefix_size (w : witness) : N := total (map (fun item => varint_size (blen item)) w).
(** The witnesses for the leaves of an input, with the keys of its origins. *)
Definition leaf_spend (i : input) (w : witness) : Prop :=
  exists cb script m st,
    In (cb, (script, 192)) (in_tap_scripts i) /\ ms_parse CTap script = Some m /\
    ms_satisfy CTap (ms_substitute_tap (tap_key_map i) m) (input_satisfier i) = Some st /\
    w = st ++ [ms_encode (ms_substitute_tap (tap_key_map i) m); ser_controlblock cb].

End Finalize.

(** Specification of signing (BIP-143, BIP-174, BIP-370), independent of the code's helpers. *)
From Verif Require Import Base OMap Consensus Ext SpecCodec Serialize V2Global V2Input V2Output V2Psbt SpecRoles V2Sign.
Local Open Scope N_scope.

(** ** Script templates *)

Definition p2sh_script (h : bytes) : bytes := [xa9; x14] ++ h ++ [x87].
(** The program of a witness version: OP_0 is 0x00, OP_1 to OP_16 are 0x51 to 0x60. *)
Definition program_script (version : N) (prog : bytes) : bytes :=
  n2b (if version =? 0 then 0 else 80 + version) :: n2b (blen prog) :: prog.
Definition p2pkh_script (h : bytes) : bytes := [x76; xa9; x14] ++ h ++ [x88; xac].

Definition p2sh (s : bytes) : Prop := exists h, length h = 20%nat /\ s = p2sh_script h.
(** A witness program (BIP-141). *)
Definition program (s : bytes) (version : N) (prog : bytes) : Prop :=
  s = program_script version prog /\ version <= 16 /\ 2 <= blen prog <= 40.
Definition p2wpkh_hash (s h : bytes) : Prop := program s 0 h /\ length h = 20%nat.
Definition p2wsh_hash (s h : bytes) : Prop := program s 0 h /\ length h = 32%nat.
Definition p2tr_key (s k : bytes) : Prop := program s 1 k /\ length k = 32%nat.

(** What an output with script [s] and redeem script [r] is; there is no case for the
    witness programs that are not assigned. *)
Inductive output_kind (s : bytes) (r : option bytes) : outtype -> Prop :=
| OKBare : ~ p2sh s -> (forall v g, ~ program s v g) -> output_kind s r Bare
| OKWpkh h : p2wpkh_hash s h -> output_kind s r Wpkh
| OKWsh h : p2wsh_hash s h -> output_kind s r Wsh
| OKShWpkh i h : p2sh s -> r = Some i -> p2wpkh_hash i h -> output_kind s r ShWpkh
| OKShWsh i h : p2sh s -> r = Some i -> p2wsh_hash i h -> output_kind s r ShWsh
| OKSh : p2sh s -> (forall i h, r = Some i -> ~ p2wpkh_hash i h /\ ~ p2wsh_hash i h) -> output_kind s r Sh
| OKTr k : p2tr_key s k -> output_kind s r Tr.

(** ** What is signed *)

(** The sighash type of an input: ALL unless it names another. *)
Definition type_of_input (i : input) (ty : N) : Prop :=
  In ty [0x01; 0x02; 0x03; 0x81; 0x82; 0x83] /\
  (in_sighash_type i = Some ty \/ in_sighash_type i = None /\ ty = 0x01).

Section Sign.
Context `{S : SignExt}.

(** The message that is signed for input [n] of the transaction [t], spending output [u]. *)
Inductive message (t : tx) (n : N) (i : input) (u : txout) (ty : N) : bytes -> Prop :=
| MBare : output_kind (to_script u) (in_redeem_script i) Bare ->
    message t n i u ty (legacy_digest t n (to_script u) ty)
| MSh r : output_kind (to_script u) (in_redeem_script i) Sh -> in_redeem_script i = Some r ->
    message t n i u ty (legacy_digest t n r ty)
| MWpkh h : p2wpkh_hash (to_script u) h ->
    message t n i u ty (segwit_digest t n (p2pkh_script h) (to_value u) ty)
| MShWpkh r h : p2sh (to_script u) -> in_redeem_script i = Some r -> p2wpkh_hash r h ->
    message t n i u ty (segwit_digest t n (p2pkh_script h) (to_value u) ty)
| MWsh h w : p2wsh_hash (to_script u) h -> in_witness_script i = Some w ->
    message t n i u ty (segwit_digest t n w (to_value u) ty)
| MShWsh r h w : p2sh (to_script u) -> in_redeem_script i = Some r -> p2wsh_hash r h ->
    in_witness_script i = Some w ->
    message t n i u ty (segwit_digest t n w (to_value u) ty).

(** The input with index [n] of a PSBT, as far as its input count goes. *)
Definition input_at (p : psbt) (n : N) (i : input) : Prop :=
  nth_error (p_inputs p) (N.to_nat n) = Some i /\ n < g_input_count (p_global p).
(** The input is signed with ECDSA. *)
Definition ecdsa_input (p : psbt) (n : N) (i : input) : Prop :=
  input_at p n i /\ exists u o, funds i u /\ output_kind (to_script u) (in_redeem_script i) o /\ o <> Tr.
(** Message and sighash type of an input. *)
Definition to_sign (p : psbt) (t : tx) (n : N) (m : bytes) (ty : N) : Prop :=
  exists i u, input_at p n i /\ funds i u /\ type_of_input i ty /\ message t n i u ty m.

(** ** The keys *)

(** The provider has a key, first by its origin, then by the public key. *)
Definition has_key (k : provider) (pk : bytes) (src : keysource) (sk : privkey) : Prop :=
  k (KRBip32 src) = inr (Some sk) \/
  (forall sk', k (KRBip32 src) <> inr (Some sk')) /\ k (KRPubkey (PubKey true pk)) = inr (Some sk).
(** The keys for the derivations of an input, in their order. *)
Inductive keys_for (k : provider) : list (bytes * keysource) -> list privkey -> Prop :=
| KNil : keys_for k [] []
| KFound pk src l sk sks : has_key k pk src sk -> keys_for k l sks -> keys_for k ((pk, src) :: l) (sk :: sks)
| KMissing pk src l sks : (forall sk, ~ has_key k pk src sk) -> keys_for k l sks -> keys_for k ((pk, src) :: l) sks.
Definition public_of (sk : privkey) : pubkey := PubKey (pv_compressed sk) (secret_pubkey (pv_secret sk)).

(** [s] is the signature of [m] that the last of the keys with public key [pk] makes. *)
Definition signature_by (sks : list privkey) (m : bytes) (ty : N) (pk : pubkey) (s : esig) : Prop :=
  exists l1 sk l2, sks = l1 ++ sk :: l2 /\ public_of sk = pk /\ ~ In pk (map public_of l2)
                   /\ s = ESig (sign_ecdsa m (pv_secret sk)) ty.

(** ** The result of signing *)

(** The signatures of [i'] are those of [i], and those of the keys. *)
Definition signatures_added (sks : list privkey) (m : bytes) (ty : N) (i i' : input) : Prop :=
  forall pk s, m_get sk_pubkey pk (in_partial_sigs i') = Some s <->
    signature_by sks m ty pk s
    \/ ~ In pk (map public_of sks) /\ m_get sk_pubkey pk (in_partial_sigs i) = Some s.
(** The inputs differ in their signatures only. *)
Definition same_but_sigs (i i' : input) : Prop := i' = set_in_partial_sigs (in_partial_sigs i') i.
(** The PSBTs differ in signatures and the modifiable flags only. *)
Record same_but_signed (p p' : psbt) : Prop := {
  sb_outputs : p_outputs p' = p_outputs p;
  sb_inputs : Forall2 same_but_sigs (p_inputs p) (p_inputs p');
  sb_global : p_global p' = set_g_tx_modifiable_flags (g_tx_modifiable_flags (p_global p')) (p_global p)
}.

(** The flags after signing, by the types of the inputs that were signed. *)
Record flags_after (P : N -> Prop) (f f' : N) : Prop := {
  fa_inputs : N.testbit f' 0 = true <-> N.testbit f 0 = true /\ forall ty, P ty -> In ty [0x81; 0x82; 0x83];
  fa_outputs : N.testbit f' 1 = true <-> N.testbit f 1 = true /\ forall ty, P ty -> In ty [0x02; 0x82];
  fa_single : N.testbit f' 2 = true <-> N.testbit f 2 = true \/ exists ty, P ty /\ In ty [0x03; 0x83];
  fa_rest : forall b, 2 < b -> N.testbit f' b = N.testbit f b
}.

(** ** Signature types *)

(** Every ECDSA signature of the input has the type of the input. *)
Definition sigs_match (i : input) : Prop :=
  exists ty, type_of_input i ty /\ forall k s, In (k, s) (in_partial_sigs i) -> es_type s = ty.

End Sign.

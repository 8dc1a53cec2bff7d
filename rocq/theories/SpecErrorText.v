(** What is expected of the texts of errors. *)
From Coq Require Import Strings.String.
From Verif Require Import Base OMap Consensus Ext Raw TapTree Serialize MapCodec SighashType V2Global V2Input V2Output
  V0Error ErrorText.
Local Open Scope N_scope.

(** ** The names of the fields *)

(** The tables of BIP-174, BIP-370 and BIP-371, and of BIP-375 with [sp]. *)
Definition global_table (sp : bool) : list (N * string) :=
  [(0, "UNSIGNED_TX"); (1, "XPUB"); (2, "TX_VERSION"); (3, "FALLBACK_LOCKTIME"); (4, "INPUT_COUNT");
   (5, "OUTPUT_COUNT"); (6, "TX_MODIFIABLE"); (251, "VERSION"); (252, "PROPRIETARY")]%string
  ++ if sp then [(7, "SP_ECDH_SHARE"); (8, "SP_DLEQ")]%string else [].
Definition input_table (sp : bool) : list (N * string) :=
  [(0, "NON_WITNESS_UTXO"); (1, "WITNESS_UTXO"); (2, "PARTIAL_SIG"); (3, "SIGHASH_TYPE"); (4, "REDEEM_SCRIPT");
   (5, "WITNESS_SCRIPT"); (6, "BIP32_DERIVATION"); (7, "FINAL_SCRIPTSIG"); (8, "FINAL_SCRIPTWITNESS");
   (9, "POR_COMMITMENT"); (10, "RIPEMD160"); (11, "SHA256"); (12, "HASH160"); (13, "HASH256");
   (14, "PREVIOUS_TXID"); (15, "OUTPUT_INDEX"); (16, "SEQUENCE"); (17, "REQUIRED_TIME_LOCKTIME");
   (18, "REQUIRED_HEIGHT_LOCKTIME"); (19, "TAP_KEY_SIG"); (20, "TAP_SCRIPT_SIG"); (21, "TAP_LEAF_SCRIPT");
   (22, "TAP_BIP32_DERIVATION"); (23, "TAP_INTERNAL_KEY"); (24, "TAP_MERKLE_ROOT"); (252, "PROPRIETARY")]%string
  ++ if sp then [(29, "SP_ECDH_SHARE"); (30, "SP_DLEQ")]%string else [].
Definition output_table (sp : bool) : list (N * string) :=
  [(0, "REDEEM_SCRIPT"); (1, "WITNESS_SCRIPT"); (2, "BIP32_DERIVATION"); (3, "AMOUNT"); (4, "SCRIPT");
   (5, "TAP_INTERNAL_KEY"); (6, "TAP_TREE"); (7, "TAP_BIP32_DERIVATION"); (252, "PROPRIETARY")]%string
  ++ if sp then [(9, "SP_V0_INFO"); (10, "SP_V0_LABEL")]%string else [].

(** [name] is the name that a table gives to the key type [t]. *)
Definition named (prefix : string) (table : list (N * string)) (t : byte) (name : bytes) : Prop :=
  exists s, In (b2n t, s) table /\ name = str prefix ++ str s.
Definition unnamed (table : list (N * string)) (t : byte) : Prop := ~ In (b2n t) (map fst table).

(** ** Reports *)

Section Reports.
Context `{C : Cfg}.

(** The texts of an error and its causes, as a program prints them that follows [source]. *)
Inductive causes : option cause -> list bytes -> Prop :=
| causes_end : causes None []
| causes_next c l : causes (cause_source c) l -> causes (Some c) (cause_text c :: l).

Definition value_report (e : serr) (l : list bytes) : Prop :=
  exists m, causes (serr_source e) m /\ l = serr_text e :: m.
Definition global_report (e : gderr) (l : list bytes) : Prop :=
  exists m, causes (gderr_source e) m /\ l = gderr_text e :: m.
Definition input_report (e : iderr) (l : list bytes) : Prop :=
  exists m, causes (iderr_source e) m /\ l = iderr_text e :: m.
Definition output_report (e : oderr) (l : list bytes) : Prop :=
  exists m, causes (oderr_source e) m /\ l = oderr_text e :: m.

End Reports.

(** Errors that are the same but for errors of other crates. *)
Definition same_value (a b : serr) : Prop :=
  match a, b with SConsensusEncoding _, SConsensusEncoding _ => True | _, _ => a = b end.
(** The same, but for the name of the hash function. *)
Definition same_pair (a b : ierr) : Prop :=
  match a, b with
  | IDeser s, IDeser t => same_value s t
  | IConsensus _, IConsensus _ => True
  | IHashPreimage _ v h, IHashPreimage _ v' h' => v = v' /\ h = h'
  | _, _ => a = b
  end.
Definition same_global (a b : gderr) : Prop :=
  match a, b with
  | GDInsertPair x, GDInsertPair y => same_pair x y
  | GDDeserPair x, GDDeserPair y => same_value x y
  | _, _ => a = b
  end.
Definition same_input (a b : iderr) : Prop :=
  match a, b with
  | IDInsertPair x, IDInsertPair y => same_pair x y
  | IDDeserPair x, IDDeserPair y => same_value x y
  | _, _ => a = b
  end.
Definition same_output (a b : oderr) : Prop :=
  match a, b with
  | ODInsertPair x, ODInsertPair y => same_pair x y
  | ODDeserPair x, ODDeserPair y => same_value x y
  | _, _ => a = b
  end.
Definition same0 (a b : err0) : Prop :=
  match a, b with E0ConsensusEncoding _, E0ConsensusEncoding _ => True | _, _ => a = b end.

(** What the text of a decoding error shows of the pair that was refused: its key, its lengths, the
    numbers in it. *)
From Coq Require Import Strings.String.
From Verif Require Import Base Consensus Ext Raw MapCodec SighashType Serialize SpecErrors SpecErrorText.
Local Open Scope N_scope.

(** ** Numbers and bytes as text *)

Definition digit_in (alphabet : string) (c : byte) (x : N) : Prop := nth_error (str alphabet) (N.to_nat x) = Some c.
Definition dec_digit : byte -> N -> Prop := digit_in "0123456789".
Definition low_digit : byte -> N -> Prop := digit_in "0123456789abcdef".

(** A number without leading zeros. *)
Inductive numeral (base : N) (digit : byte -> N -> Prop) : bytes -> N -> Prop :=
| NOne c x : digit c x -> numeral base digit [c] x
| NMore s n c x : numeral base digit s n -> n <> 0 -> digit c x -> numeral base digit (s ++ [c]) (base * n + x).
Definition in_decimal : bytes -> N -> Prop := numeral 10 dec_digit.

(** Two digits for each byte. *)
Inductive in_hex : bytes -> bytes -> Prop :=
| XNil : in_hex [] []
| XCons a x b y s c t : low_digit a x -> low_digit b y -> b2n c = 16 * x + y -> in_hex s t ->
    in_hex (a :: b :: s) (c :: t).

(** Texts separated by [sep]. *)
Definition joined (sep : bytes) (l : list bytes) (t : bytes) : Prop :=
  match l with [] => t = [] | x :: l' => t = x ++ flat_map (fun y => sep ++ y) l' end.
(** A list of numbers. *)
Definition in_list (t bs : bytes) : Prop :=
  exists l s, Forall2 in_decimal l (map b2n bs) /\ joined (str ", ") l s /\ t = str "[" ++ s ++ str "]".

(** A key: its type as a number, then its data. *)
Definition shows_key (t : bytes) (k : key) : Prop :=
  exists ty d, numeral 16 low_digit ty (b2n (k_type k)) /\ in_hex d (k_data k)
    /\ t = str "type: 0x" ++ ty ++ str ", key: " ++ d.
(** A length and the one that was expected. *)
Definition shows_lengths (before between after : string) (got expected : N) (t : bytes) : Prop :=
  exists g e, in_decimal g got /\ in_decimal e expected /\ t = str before ++ g ++ str between ++ e ++ str after.

(** A step of a derivation path (BIP-32): a number, with a quote if it is hardened. *)
Definition shows_step (t : bytes) (n : N) : Prop :=
  (n < 2147483648 /\ in_decimal t n) \/ (exists d m, n = 2147483648 + m /\ in_decimal d m /\ t = d ++ str "'").
(** The origin of a key. *)
Definition shows_origin (t : bytes) (s : keysource) : Prop :=
  exists f l d, in_hex f (ks_fp s) /\ Forall2 shows_step l (ks_path s) /\ joined (str "/") l d
    /\ t = f ++ str ", " ++ d.

(** ** The texts *)

(** The text for a refused pair: what all maps have in common. *)
Inductive shows_pair (p : pair) : bytes -> Prop :=
| TAgain t : shows_key t (p_key p) -> shows_pair p (str "duplicate key: " ++ t)
| TEmpty t : k_data (p_key p) = [] -> shows_key t (p_key p) -> shows_pair p (str "key should contain data: " ++ t)
| TNotEmpty t : k_data (p_key p) <> [] -> shows_key t (p_key p) -> shows_pair p (str "key should not contain data: " ++ t)
| TValue : shows_pair p (str "error deserializing raw value").

(** The fields with a value of fixed length in the global map, in the input maps and in the output
    maps (BIP-174, BIP-370 and BIP-375). *)
Definition global_sizes : list (N * N) := [(2, 4); (3, 4); (6, 1); (7, 33); (8, 64); (251, 4)].
Definition input_sizes : list (N * N) := [(29, 33); (30, 64)].
Definition output_sizes : list (N * N) := [(9, 66); (10, 4)].
(** Length and expected length of a value, and of a scan key. *)
Definition shows_size (before between after : string) (sizes : list (N * N)) (p : pair) (t : bytes) : Prop :=
  exists n, In (b2n (k_type (p_key p)), n) sizes /\ shows_lengths before between after (blen (p_value p)) n t.
Definition shows_scan_key (types : list N) (p : pair) (t : bytes) : Prop :=
  In (b2n (k_type (p_key p))) types
  /\ shows_lengths "key wrong length (got: " ", expected: " ")" (blen (k_data (p_key p))) 33 t.

Definition input_words (p : pair) (t : bytes) : Prop :=
  shows_pair p t
  \/ shows_size "value wrong length (got: " ", expected: " ")" input_sizes p t
  \/ shows_scan_key [29; 30] p t
  \/ (In (b2n (k_type (p_key p))) [10; 11; 12; 13] /\ t = str "invalid hash preimage").
Definition output_words (p : pair) (t : bytes) : Prop :=
  shows_pair p t
  \/ shows_size "value wrong length (got: " ", expected: " ")" output_sizes p t.

(** The global map; [l] are the pairs before the refused one. *)
Inductive global_words (l : list pair) (p : pair) : bytes -> Prop :=
| GPair t : shows_pair p t -> global_words l p t
| GSize t : shows_size "value (keyvalue pair) wrong length (got, want) " " " "" global_sizes p t -> global_words l p t
| GScanKey t : shows_scan_key [7; 8] p t -> global_words l p t
| GCount : In (b2n (k_type (p_key p))) [4; 5] -> global_words l p (str "error consensus deserializing type")
| GVersion n t : b2n (k_type (p_key p)) = 251 -> le_dec (p_value p) = n -> in_decimal t n ->
    global_words l p (str "PSBT_GLOBAL_VERSION: PSBT v2 expects the version to be 2, found: " ++ t)
(* the value is empty, not the key *)
| GXpubEmpty t : b2n (k_type (p_key p)) = 1 -> p_value p = [] -> shows_key t (p_key p) ->
    global_words l p (str "key should not contain data: " ++ t)
(* the path is not looked at *)
| GXpubFingerprint : b2n (k_type (p_key p)) = 1 -> blen (p_value p) < 4 ->
    global_words l p (str "PSBT_GLOBAL_XPUB: derivation path must be a list of 32 byte varints")
| GXpubPath t : b2n (k_type (p_key p)) = 1 -> blen (p_value p) mod 4 <> 0 -> in_decimal t (blen (p_value p)) ->
    global_words l p (str "PSBT_GLOBAL_XPUB: derivation path must be a list of 32 byte varints: " ++ t)
| GXpubKey : b2n (k_type (p_key p)) = 1 -> global_words l p (str "PSBT_GLOBAL_XPUB: Failed to decode a BIP-32 type")
(* the origin is that of the pair before *)
| GXpubAgain q s t : b2n (k_type (p_key p)) = 1 -> In q l -> b2n (k_type (p_key q)) = 1 ->
    p_value q = ser_keysource s -> shows_origin t s ->
    global_words l p (str "PSBT_GLOBAL_XPUB: xpubs must be unique (" ++ t ++ str ")")
| GProprietary : b2n (k_type (p_key p)) = 252 ->
    global_words l p (str "PSBT_GLOBAL_PROPRIETARY: Invalid proprietary key")
| GExcluded : b2n (k_type (p_key p)) = 0 ->
    global_words l p (str "found a keypair type that is explicitly excluded: PSBT_GLOBAL_UNSIGNED_TX").

(** Version 0: the errors that show something of a pair. *)
Definition hash_names : list (N * string) := [(10, "Ripemd"); (11, "Sha256"); (12, "Hash160"); (13, "Hash256")]%string.
Inductive words0 (p : pair) : bytes -> Prop :=
| WKey t : shows_key t (p_key p) -> words0 p (str "invalid key: " ++ t)
| WAgain t : shows_key t (p_key p) -> words0 p (str "duplicate key: " ++ t)
| WPreimage v h name : In (b2n (k_type (p_key p)), name) hash_names -> in_list v (p_value p) -> in_list h (k_data (p_key p)) ->
    words0 p (str "Preimage " ++ v ++ str " does not match " ++ str name ++ str " hash " ++ h).

(** The errors of version 0 about the version and the extended keys of the global map. *)
Inductive global_words0 `{X : Ext} (l : list pair) (p : pair) : bytes -> Prop :=
| WLength : b2n (k_type (p_key p)) = 251 -> k_data (p_key p) = [] -> blen (p_value p) <> 4 ->
    global_words0 l p (str "version error invalid global version value length (must be 4 bytes)")
| WVersion : b2n (k_type (p_key p)) = 251 -> k_data (p_key p) = [] -> blen (p_value p) = 4 -> 0 < le_dec (p_value p) ->
    global_words0 l p (str "version error PSBT versions greater than 0 are not supported")
| WXpubEmpty : b2n (k_type (p_key p)) = 1 -> k_data (p_key p) = [] ->
    global_words0 l p (str "xpub key error -  Xpub global key must contain serialized Xpub data")
| WXpubKey : b2n (k_type (p_key p)) = 1 -> k_data (p_key p) <> [] -> de_xpub (k_data (p_key p)) = None ->
    global_words0 l p (str "xpub key error -  Can't deserialize ExtendedPublicKey from global XPUB key data")
| WXpubLength : b2n (k_type (p_key p)) = 1 -> blen (p_value p) = 0 \/ blen (p_value p) mod 4 <> 0 ->
    global_words0 l p (str "xpub key error -  Incorrect length of global xpub derivation data")
| WXpubAgain q x : b2n (k_type (p_key p)) = 1 -> In q l -> b2n (k_type (p_key q)) = 1 ->
    de_xpub (k_data (p_key q)) = Some x -> de_xpub (k_data (p_key p)) = Some x ->
    global_words0 l p (str "xpub key error -  Repeated global xpub key").

(** The errors of version 0 about the PSBT as a whole. *)
Inductive whole_words0 `{X : Ext} (bs : bytes) : bytes -> Prop :=
| WMagic : (forall t, bs <> [x70; x73; x62; x74] ++ t) -> whole_words0 bs (str "invalid magic")
| WSeparator t : bs = [x70; x73; x62; x74] ++ t -> (forall t', t <> xff :: t') -> whole_words0 bs (str "invalid separator")
| WNoTx l r : bs = [x70; x73; x62; x74; xff] ++ map_bytes l ++ r -> lacks l x00 ->
    whole_words0 bs (str "partially signed transactions must have an unsigned transaction")
| WScriptSig l r t i : bs = [x70; x73; x62; x74; xff] ++ map_bytes l ++ r -> has_tx l t -> In i (tx_input t) -> ti_script_sig i <> [] ->
    whole_words0 bs (str "the unsigned transaction has script sigs").

(** What the texts about a missing or a superfluous field say of the pairs [l] of a map. *)
Inductive global_lack (sp : bool) (l : list pair) : bytes -> Prop :=
| LVersion : lacks l xfb -> global_lack sp l (str "serialized PSBT is missing the version number")
| LTxVersion : lacks l x02 -> global_lack sp l (str "serialized PSBT is missing the transaction version number")
| LInputCount : lacks l x04 -> global_lack sp l (str "serialized PSBT is missing the input count")
| LOutputCount : lacks l x05 -> global_lack sp l (str "serialized PSBT is missing the output count")
| LShares : sp = true -> (lacks l x07 <-> ~ lacks l x08) ->
    global_lack sp l (str "ECDH shares and DLEQ proofs must both be present or both absent").
(* the previous id, the index, the amount and the script may be there with their default value *)
Inductive input_lack (sp : bool) (l : list pair) : bytes -> Prop :=
| LTxid : lacks_but l x0e (repeat x00 32) -> input_lack sp l (str "input must contain a previous txid")
| LIndex : lacks_but l x0f [xff; xff; xff; xff] -> input_lack sp l (str "input must contain a spent output index")
| LInputShares : sp = true -> (lacks l x1d <-> ~ lacks l x1e) ->
    input_lack sp l (str "ECDH shares and DLEQ proofs must both be present or both absent").
Inductive output_lack (sp : bool) (l : list pair) : bytes -> Prop :=
| LAmount : lacks_but l x03 (repeat x00 8) -> output_lack sp l (str "encoded output is missing a value")
| LScript : sp = false -> lacks_but l x04 [] -> output_lack sp l (str "encoded output is missing a script pubkey")
| LLabel : sp = true -> ~ lacks l x0a -> lacks l x09 -> output_lack sp l (str "output has a sp_v0_label without a sp_v0_info").
(** The texts of the maps of version 2 about a pair that is refused and about bytes that are not a pair. *)
Definition about_a_pair `{X : Ext} (refusing breaking : string) (sh : byte -> shape) (bs t : bytes) : Prop :=
  (t = str refusing /\ exists e, refused_at sh bs e) \/ (t = str breaking /\ exists e, broken_at bs e).

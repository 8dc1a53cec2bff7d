(** What the errors of the map decoders say about the pair that caused them: for every key type
    a list of the ways in which a pair can be refused, with the error for each.  Written from the
    comments of the error types (src/v2/map/global.rs:615-648, src/v2/map/input.rs:915-930,
    src/v2/map/output.rs:395-406, src/v0/bitcoin/error.rs:26-112); where the code gives an error
    that does not mean what its comment says, the line is marked. *)
From Verif Require Import Base OMap Consensus Ext Raw TapTree Serialize MapCodec V2Global V2Input V2Output V2Psbt V2Roles
  SpecCodec SpecPsbt V0Error V0Psbt.
Local Open Scope N_scope.

(** How the pairs of a key type are read. *)
Inductive shape : Type :=
| HValue {A : Type} (de : bytes -> res serr A)                               (* one pair, no key data *)
| HPlace {A : Type} (de : bytes -> res serr A)                               (* one pair, any key data *)
| HMap {K V : Type} (dek : bytes -> res serr K) (dev : bytes -> res serr V)  (* a pair for each key *)
| HPreimage (n : N) (h : bytes -> bytes) (ht : hash_type)                                   (* the preimage of a hash *)
| HShare (dev : bytes -> option bytes) (n : N)                               (* silent payments data for a scan key *)
| HFixed (n : N)                                                             (* one pair with a value of [n] bytes *)
| HSilent (n : N)                                                            (* the same, looked at in another order *)
| HVersion | HCount | HXpub                                                  (* of the v2 global map *)
| HTx0 | HXpub0 | HVersion0                                                  (* of the v0 global map *)
| HProp (own : bool)
| HExcluded
| HOther.

Section Spec.
Context `{X : Ext}.

(** An earlier pair of the same map is of the same type. *)
Definition earlier (l : list pair) (p : pair) (Q : pair -> Prop) : Prop :=
  exists q, In q l /\ k_type (p_key q) = k_type (p_key p) /\ Q q.

(** [refused sh l p e]: a pair [p] that follows the pairs [l] is refused with [e], and what [e]
    says is true of [p] and [l]. *)
Definition refused (sh : shape) (l : list pair) (p : pair) (e : ierr) : Prop :=
  let d := k_data (p_key p) in
  let v := p_value p in
  let not_empty := d <> [] /\ e = IInvalidKeyDataNotEmpty (p_key p) in
  let empty := d = [] /\ e = IInvalidKeyDataEmpty (p_key p) in
  let again := d = [] /\ earlier l p (fun q => k_data (p_key q) = []) /\ e = IDuplicateKey (p_key p) in
  let once := d = [] in
  match sh with
  | HValue de => not_empty \/ again \/ (exists s, once /\ de v = Err s /\ e = IDeser s)
  | HPlace de =>
      (earlier l p (fun _ => True) /\ e = IDuplicateKey (p_key p)) \/ (exists s, de v = Err s /\ e = IDeser s)
  | HMap dek dev =>
      empty
      \/ (exists s, d <> [] /\ dek d = Err s /\ e = IDeser s)
      \/ (exists k, dek d = Ok k /\ earlier l p (fun q => dek (k_data (p_key q)) = Ok k)
                    /\ e = IDuplicateKey (p_key p))
      \/ (exists k s, dek d = Ok k /\ dev v = Err s /\ e = IDeser s)
  | HPreimage n h ht =>
      empty
      \/ (d <> [] /\ blen d <> n /\ e = IDeser SInvalidHash)
      \/ (blen d = n /\ earlier l p (fun q => p_key q = p_key p) /\ e = IDuplicateKey (p_key p))
      \/ (blen d = n /\ h v <> d /\ e = IHashPreimage ht v d)
  | HShare dev n =>
      empty
      (* the message speaks of the length, but 33 or 65 bytes may just not be a key *)
      \/ (d <> [] /\ secp_parse d = None /\ e = IKeyWrongLength (blen d) 33)
      (* likewise for a share, which is a key *)
      \/ (exists k, secp_parse d = Some k /\ dev v = None /\ e = IValueWrongLength (blen v) n)
      \/ (exists k, secp_parse d = Some k /\ earlier l p (fun q => secp_parse (k_data (p_key q)) = Some k)
                    /\ e = IDuplicateKey (p_key p))
  | HFixed n => not_empty \/ again \/ (once /\ blen v <> n /\ e = IValueWrongLength (blen v) n)
  | HSilent n =>
      (earlier l p (fun q => k_data (p_key q) = []) /\ e = IDuplicateKey (p_key p))
      \/ not_empty \/ (once /\ blen v <> n /\ e = IValueWrongLength (blen v) n)
  | HVersion =>
      not_empty \/ again \/ (once /\ blen v <> 4 /\ e = IValueWrongLength (blen v) 4)
      \/ (exists n, once /\ v = le_enc 4 n /\ n < U32 /\ n <> 2 /\ e = IWrongVersion n)
  | HCount =>
      not_empty
      (* also for the only PSBT_GLOBAL_INPUT_COUNT *)
      \/ (d = [] /\ (exists q, In q l /\ k_type (p_key q) = x05) /\ e = IDuplicateKey (p_key p))
      \/ (exists c, once /\ dec_varint v = Err c /\ e = IConsensus c)
  | HXpub =>
      empty
      \/ (d <> [] /\ de_xpub d = None /\ e = IBip32)
      \/ (exists x, de_xpub d = Some x /\
          (* it is the value that is empty *)
          ((v = [] /\ e = IInvalidKeyDataNotEmpty (p_key p))
           \/ (0 < blen v < 4 /\ e = IXpubInvalidFingerprint)
           \/ (4 < blen v /\ blen v mod 4 <> 0 /\ e = IXpubInvalidPath (blen v))
           \/ (exists s, earlier l p (fun q => de_xpub (k_data (p_key q)) = Some x /\ p_value q = ser_keysource s)
                         /\ e = IDuplicateXpub s)))
  | HTx0 => not_empty \/ again \/ (exists s, once /\ de_unsigned_tx v = Err s /\ e = IDeser s)
  | HXpub0 =>
      (d = [] /\ e = IXPubKey0 4)
      \/ (d <> [] /\ de_xpub d = None /\ e = IXPubKey0 0)
      \/ (exists x, de_xpub d = Some x /\
          ((blen v = 0 \/ blen v mod 4 <> 0) /\ e = IXPubKey0 1
           \/ (earlier l p (fun q => de_xpub (k_data (p_key q)) = Some x) /\ e = IXPubKey0 3)))
  | HVersion0 =>
      not_empty \/ again \/ (once /\ blen v <> 4 /\ e = IVersion0 0)
      \/ (exists n, once /\ v = le_enc 4 n /\ n < U32 /\ n <> 0 /\ e = IVersion0 1)
  | HProp own =>
      (own = true /\ empty)
      \/ (exists s, propkey_try_from (p_key p) = Err s /\ e = if own then IInvalidProprietaryKey else IDeser s)
      \/ (earlier l p (fun q => p_key q = p_key p) /\ e = IDuplicateKey (p_key p))
  | HExcluded => e = IExcludedKey (k_type (p_key p))
  | HOther => earlier l p (fun q => p_key q = p_key p) /\ e = IDuplicateKey (p_key p)
  end.

(** The key types of BIP-174, BIP-370, BIP-371 and BIP-375 (with [sp]) in the global map of
    version 2. *)
Definition global_shape (sp : bool) (t : byte) : shape :=
  match t with
  | x00 => HExcluded
  | x01 => HXpub
  | x02 | x03 => HFixed 4
  | x04 | x05 => HCount
  | x06 => HFixed 1
  | x07 => if sp then HShare secp_parse 33 else HOther
  | x08 => if sp then HShare dleq_try_from 64 else HOther
  | xfb => HVersion
  | xfc => HProp true
  | _ => HOther
  end.

(** The key types that version 0 and version 2 share in the input maps. *)
Definition common_input_shape (t : byte) : option shape :=
  match t with
  | x00 => Some (HValue de_tx)
  | x01 => Some (HValue de_txout)
  | x02 => Some (HMap de_pubkey de_esig)
  | x03 => Some (HValue de_u32)
  | x04 | x05 | x07 => Some (HValue de_script)
  | x06 => Some (HMap de_secp de_keysource)
  | x08 => Some (HValue de_witness)
  | x0a => Some (HPreimage 20 ripemd160 HRipemd)
  | x0b => Some (HPreimage 32 sha256 HSha256)
  | x0c => Some (HPreimage 20 hash160 HHash160)
  | x0d => Some (HPreimage 32 sha256d HHash256)
  | x13 => Some (HValue de_tsig)
  | x14 => Some (HMap de_xleaf de_tsig)
  | x15 => Some (HMap de_controlblock de_leafscript)
  | x16 => Some (HMap de_xonly de_taporigin)
  | x17 => Some (HValue de_xonly)
  | x18 => Some (HValue (de_hash 32))
  | xfc => Some (HProp false)
  | _ => None
  end.

(** The input maps of version 2. *)
Definition input_shape (sp : bool) (t : byte) : shape :=
  match common_input_shape t with
  | Some sh => sh
  | None =>
      match t with
      | x0e => HPlace (de_hash 32)
      | x0f => HPlace de_u32
      | x10 => HValue de_u32
      | x11 => HValue de_time
      | x12 => HValue de_height
      | x1d => if sp then HShare secp_parse 33 else HOther
      | x1e => if sp then HShare dleq_try_from 64 else HOther
      | _ => HOther
      end
  end.

(** The output maps of version 2. *)
Definition output_shape (sp : bool) (t : byte) : shape :=
  match t with
  | x00 | x01 => HValue de_script
  | x02 => HMap de_secp de_keysource
  | x03 => HPlace de_amount
  | x04 => HPlace de_script
  | x05 => HValue de_xonly
  | x06 => HValue de_taptree
  | x07 => HMap de_xonly de_taporigin
  | x09 => if sp then HSilent 66 else HOther
  | x0a => if sp then HSilent 4 else HOther
  | xfc => HProp false
  | _ => HOther
  end.

(** The maps of version 0. *)
Definition global0_shape (t : byte) : shape :=
  match t with
  | x00 => HTx0
  | x01 => HXpub0
  | x02 | x03 | x04 | x05 | x06 => HExcluded
  | xfb => HVersion0
  | xfc => HProp false
  | _ => HOther
  end.
Definition input0_shape (t : byte) : shape :=
  match common_input_shape t with
  | Some sh => sh
  | None =>
      match t with
      | x0e | x0f | x10 | x11 | x12 => HExcluded
      | _ => HOther
      end
  end.
Definition output0_shape (t : byte) : shape :=
  match t with
  | x00 | x01 => HValue de_script
  | x02 => HMap de_secp de_keysource
  | x03 | x04 => HExcluded
  | x05 => HValue de_xonly
  | x06 => HValue de_taptree
  | x07 => HMap de_xonly de_taporigin
  | xfc => HProp false
  | _ => HOther
  end.

(** The bytes [bs] begin with pairs [l] and a pair that is refused after them. *)
Definition refused_at (sh : byte -> shape) (bs : bytes) (e : ierr) : Prop :=
  exists l p r, bs = flat_map ser_pair l ++ ser_pair p ++ r /\ refused (sh (k_type (p_key p))) l p e.

(** The bytes [bs] begin with pairs and then something that is neither a pair nor the end of a map. *)
Definition broken_at (bs : bytes) (e : serr) : Prop :=
  exists l r, bs = flat_map ser_pair l ++ r /\ dec_pair r = Err e /\ e <> SNoMorePairs.

(** ** Whole maps *)

(** The map of the pairs [l] on the wire. *)
Definition map_bytes (l : list pair) : bytes := flat_map ser_pair l ++ [x00].

(** [l] has no pair of type [t]. *)
Definition lacks (l : list pair) (t : byte) : Prop := forall q, In q l -> k_type (p_key q) <> t.
(** [l] has no pair of type [t] that says anything but [v]. *)
Definition lacks_but (l : list pair) (t : byte) (v : bytes) : Prop :=
  forall q, In q l -> k_type (p_key q) = t -> p_value q = v.

(** What the errors after the last pair of a map say (src/v2/map/global.rs:545-562,
    src/v2/map/input.rs:866-877, src/v2/map/output.rs:349-359). *)
Definition global_incomplete (sp : bool) (l : list pair) (e : gderr) : Prop :=
  match e with
  | GDMissingVersion => lacks l xfb
  | GDMissingTxVersion => lacks l x02
  | GDMissingInputCount => lacks l x04
  | GDMissingOutputCount => lacks l x05
  | GDFieldMismatch => sp = true /\ (lacks l x07 <-> ~ lacks l x08)
  | GDInputCountOverflow _ | GDOutputCountOverflow _ | GDInsertPair _ | GDDeserPair _ => False
  end.
Definition input_incomplete (sp : bool) (l : list pair) (e : iderr) : Prop :=
  match e with
  (* also for the id of 32 zero bytes and the index 0xffffffff *)
  | IDMissingPreviousTxid => lacks_but l x0e (repeat x00 32)
  | IDMissingSpentOutputIndex => lacks_but l x0f [xff; xff; xff; xff]
  | IDFieldMismatch => sp = true /\ (lacks l x1d <-> ~ lacks l x1e)
  | IDInsertPair _ | IDDeserPair _ => False
  end.
Definition output_incomplete (sp : bool) (l : list pair) (e : oderr) : Prop :=
  match e with
  (* also for the amount 0 and the empty script *)
  | ODMissingValue => lacks_but l x03 (repeat x00 8)
  | ODMissingScriptPubkey => sp = false /\ lacks_but l x04 []
  | ODLabelWithoutInfo => sp = true /\ ~ lacks l x0a /\ lacks l x09
  | ODInsertPair _ | ODDeserPair _ => False
  end.

(** What an error of a map decoder says about the bytes. *)
Definition global_says (sp : bool) (bs : bytes) (e : gderr) : Prop :=
  match e with
  | GDInsertPair e => refused_at (global_shape sp) bs e
  | GDDeserPair s => broken_at bs s
  | e => exists l r, bs = map_bytes l ++ r /\ global_incomplete sp l e
  end.
Definition input_says (sp : bool) (bs : bytes) (e : iderr) : Prop :=
  match e with
  | IDInsertPair e => refused_at (input_shape sp) bs e
  | IDDeserPair s => broken_at bs s
  | e => exists l r, bs = map_bytes l ++ r /\ input_incomplete sp l e
  end.
Definition output_says (sp : bool) (bs : bytes) (e : oderr) : Prop :=
  match e with
  | ODInsertPair e => refused_at (output_shape sp) bs e
  | ODDeserPair s => broken_at bs s
  | e => exists l r, bs = map_bytes l ++ r /\ output_incomplete sp l e
  end.

(** ** Whole PSBTs *)

(** What an error of the v2 decoder says (src/v2/error.rs:17-34). *)
Definition psbt_says (sp : bool) (bs : bytes) (e : deserr) : Prop :=
  match e with
  | InvalidMagic => forall t, bs <> [x70; x73; x62; x74] ++ t
  | InvalidSeparator => exists t, bs = [x70; x73; x62; x74] ++ t /\ forall t', t <> xff :: t'
  | NoMorePairs => False
  | DecodeGlobal e => exists d, bs = [x70; x73; x62; x74; xff] ++ d /\ global_says sp d e
  | DecodeInput e =>
      exists lg lis d n,
        bs = [x70; x73; x62; x74; xff] ++ map_bytes lg ++ concat (map map_bytes lis) ++ d
        /\ has_count lg x04 n /\ blen lis < n /\ input_says sp d e
  | DecodeOutput e =>
      exists lg lis los d n m,
        bs = [x70; x73; x62; x74; xff] ++ map_bytes lg ++ concat (map map_bytes lis) ++ concat (map map_bytes los) ++ d
        /\ has_count lg x04 n /\ blen lis = n /\ has_count lg x05 m /\ blen los < m /\ output_says sp d e
  end.

(** Version 0 has one error type for everything (src/v0/bitcoin/error.rs:26-112). *)
Definition means0 (e : ierr) (e0 : err0) : Prop :=
  match e with
  | IDuplicateKey k => e0 = E0DuplicateKey k
  | IInvalidKeyDataEmpty k | IInvalidKeyDataNotEmpty k => e0 = E0InvalidKey k
  | IDeser s => e0 = err0_of_serr s
  | IExcludedKey t => e0 = E0ExcludedKey t
  | IHashPreimage ht v h => e0 = E0InvalidPreimageHashPair ht v h
  | IXPubKey0 n => n <> 2 /\ e0 = E0XPubKey n
  | IVersion0 n => e0 = E0Version n
  | _ => False
  end.
Definition map0_says (sh : byte -> shape) (bs : bytes) (e0 : err0) : Prop :=
  (exists e, refused_at sh bs e /\ means0 e e0) \/ (exists s, broken_at bs s /\ e0 = err0_of_serr s).

(** The transaction of a v0 global map. *)
Definition has_tx (l : list pair) (t : tx) : Prop :=
  exists p, In p l /\ p_key p = Key x00 [] /\ de_unsigned_tx (p_value p) = Ok t.

(** What an error of the v0 decoder says.  The global map is read from the first
    [MAX_VEC_SIZE] bytes only. *)
Definition psbt0_says (bs : bytes) (e0 : err0) : Prop :=
  (e0 = E0InvalidMagic /\ forall t, bs <> [x70; x73; x62; x74] ++ t)
  \/ (e0 = E0InvalidSeparator /\ exists t, bs = [x70; x73; x62; x74] ++ t /\ forall t', t <> xff :: t')
  \/ (exists d d', bs = [x70; x73; x62; x74; xff] ++ d ++ d' /\ (d' = [] \/ blen d = MAX_VEC_SIZE)
      /\ (map0_says global0_shape d e0
          \/ (e0 = E0MustHaveUnsignedTx /\ exists lg r, d = map_bytes lg ++ r /\ lacks lg x00)))
  \/ (exists lg r t, bs = [x70; x73; x62; x74; xff] ++ map_bytes lg ++ r /\ has_tx lg t
      /\ e0 = E0UnsignedTxHasScriptSigs /\ exists i, In i (tx_input t) /\ ti_script_sig i <> [])
  \/ (exists lg lis d t, bs = [x70; x73; x62; x74; xff] ++ map_bytes lg ++ concat (map map_bytes lis) ++ d
      /\ has_tx lg t /\ blen lis < blen (tx_input t) /\ map0_says input0_shape d e0)
  \/ (exists lg lis los d t,
      bs = [x70; x73; x62; x74; xff] ++ map_bytes lg ++ concat (map map_bytes lis) ++ concat (map map_bytes los) ++ d
      /\ has_tx lg t /\ blen lis = blen (tx_input t) /\ blen los < blen (tx_output t)
      /\ map0_says output0_shape d e0).

End Spec.

(** Which byte strings the decoders accept: the format of a pair for every key type (the tables of
    key types are those of [SpecErrors]), which pairs may follow each other in a map, and what a map
    must contain.  Written from BIP-174, BIP-370, BIP-371 and BIP-375; where the code accepts more
    than they allow, the line is marked. *)
From Coq Require Import List.
From Verif Require Import Base OMap Consensus Ext Raw TapTree Serialize MapCodec V2Global V2Input V2Output V2Psbt
  SpecCodec SpecPsbt SpecErrors V0Psbt.
Local Open Scope N_scope.

Section Spec.
Context `{X : Ext}.

(** The format of one pair. *)
Definition fits (sh : shape) (p : pair) : Prop :=
  let d := k_data (p_key p) in
  let v := p_value p in
  match sh with
  | HValue de => d = [] /\ exists a, de v = Ok a
  (* the BIP does not allow key data here *)
  | HPlace de => exists a, de v = Ok a
  | HMap dek dev => d <> [] /\ (exists k, dek d = Ok k) /\ exists a, dev v = Ok a
  | HPreimage n h _ => blen d = n /\ d = h v
  | HShare dev _ => d <> [] /\ (exists k, secp_parse d = Some k) /\ exists a, dev v = Some a
  | HFixed n | HSilent n => d = [] /\ blen v = n
  | HVersion => d = [] /\ v = [x02; x00; x00; x00]
  (* the BIP does not allow bytes behind the count *)
  | HCount => d = [] /\ exists n c x, compact_size n c /\ v = c ++ x
  | HXpub | HXpub0 => d <> [] /\ (exists x, de_xpub d = Some x) /\ v <> [] /\ blen v mod 4 = 0
  | HTx0 => d = [] /\ exists t, de_unsigned_tx v = Ok t
  | HVersion0 => d = [] /\ v = [x00; x00; x00; x00]
  (* the limit for the key of the proprietary use is not in the BIP *)
  | HProp _ => exists k, propkey_wire k d /\ blen (pk_key k) <= 1024
  | HExcluded => False
  | HOther => True
  end.

(** Two pairs of the same type that may not stand in one map, in this order; [w] is the value that
    stands for a missing value. *)
Definition same_key (sh : shape) (w : bytes) (p q : pair) : Prop :=
  match sh with
  | HValue _ | HFixed _ | HSilent _ | HVersion | HTx0 | HVersion0 => True
  (* the BIP does not allow a second pair at all *)
  | HPlace _ => p_value p <> w
  | HMap dek _ => exists k, dek (k_data (p_key p)) = Ok k /\ dek (k_data (p_key q)) = Ok k
  | HShare _ _ => exists k, secp_parse (k_data (p_key p)) = Some k /\ secp_parse (k_data (p_key q)) = Some k
  | HXpub | HXpub0 => exists x, de_xpub (k_data (p_key p)) = Some x /\ de_xpub (k_data (p_key q)) = Some x
  | HPreimage _ _ _ | HProp _ | HExcluded | HOther => p_key p = p_key q
  | HCount => False
  end.
Definition clashes (sh : byte -> shape) (place : byte -> bytes) (p q : pair) : Prop :=
  match sh (k_type (p_key q)) with
  (* no count may follow an output count; the BIP asks for one pair of each type, in any order *)
  | HCount => k_type (p_key p) = x05
  | s => k_type (p_key p) = k_type (p_key q) /\ same_key s (place (k_type (p_key q))) p q
  end.

(** All pairs have their format and none is repeated. *)
Definition readable (sh : byte -> shape) (place : byte -> bytes) (l : list pair) : Prop :=
  Forall (fun p => fits (sh (k_type (p_key p))) p) l /\ ForallOrdPairs (fun p q => ~ clashes sh place p q) l.

(** Values that stand for a missing value in version 2. *)
Definition no_place (_ : byte) : bytes := [].
Definition input_place (t : byte) : bytes := if beq t x0e then repeat x00 32 else [xff; xff; xff; xff].
Definition output_place (t : byte) : bytes := if beq t x03 then repeat x00 8 else [].

(** [l] has a pair of type [t]. *)
Definition has_type (l : list pair) (t : byte) : Prop := exists q, In q l /\ k_type (p_key q) = t.
(** [l] has a pair of type [t] with another value than [w]. *)
Definition has_other (l : list pair) (t : byte) (w : bytes) : Prop :=
  exists q, In q l /\ k_type (p_key q) = t /\ p_value q <> w.
(** The last pair of type [t] gives the count [n]. *)
Definition last_count (l : list pair) (t : byte) (n : N) : Prop :=
  exists ps p c x, filter (fun q => beq (k_type (p_key q)) t) l = ps ++ [p]
    /\ compact_size n c /\ p_value p = c ++ x.

(** The maps of version 2. *)
Definition global_fine (sp : bool) (l : list pair) : Prop :=
  readable (global_shape sp) no_place l
  /\ has_type l xfb /\ has_type l x02 /\ has_type l x04 /\ has_type l x05
  /\ (sp = true -> (has_type l x07 <-> has_type l x08)).
Definition input_fine (sp : bool) (l : list pair) : Prop :=
  readable (input_shape sp) input_place l
  (* zero bytes and the index 0xffffffff are taken for missing *)
  /\ has_other l x0e (repeat x00 32) /\ has_other l x0f [xff; xff; xff; xff]
  /\ (sp = true -> (has_type l x1d <-> has_type l x1e)).
Definition output_fine (sp : bool) (l : list pair) : Prop :=
  readable (output_shape sp) output_place l
  (* the amount 0 and the empty script are taken for missing; with silent payments the script may be missing *)
  /\ has_other l x03 (repeat x00 8) /\ (sp = false -> has_other l x04 [])
  /\ (sp = true -> has_type l x0a -> has_type l x09).

(** The maps of version 0. *)
Definition global0_fine (l : list pair) (t : tx) : Prop :=
  readable global0_shape no_place l
  /\ has_tx l t /\ Forall (fun i => ti_script_sig i = [] /\ ti_witness i = []) (tx_input t).
Definition input0_fine (l : list pair) : Prop := readable input0_shape no_place l.
Definition output0_fine (l : list pair) : Prop := readable output0_shape no_place l.

(** What a reader of pairs can hold: 4,000,000 bytes, in a value 3,999,995. *)
Definition sizes (l : list pair) : Prop :=
  Forall (fun p => blen (k_data (p_key p)) <= 4000000 /\ blen (p_value p) <= 3999995) l.

(** A PSBT of version 2; any bytes may follow it.  [Vec::with_capacity]
    cannot hold more bytes than the last two lines say; [si], [so] are the sizes of the structs. *)
Definition psbt_format (sp : bool) (si so : N) (bs : bytes) : Prop :=
  exists lg lis los w junk, bs = w ++ junk /\ psbt_wire lg lis los w
    /\ sizes lg /\ Forall sizes lis /\ Forall sizes los
    /\ global_fine sp lg /\ Forall (input_fine sp) lis /\ Forall (output_fine sp) los
    /\ last_count lg x04 (blen lis) /\ last_count lg x05 (blen los)
    /\ blen lis * si < 2 ^ 63
    /\ blen los * so < 2 ^ 63.

(** A PSBT of version 0; the code wants the global map within 4,000,000 bytes. *)
Definition psbt0_format (bs : bytes) : Prop :=
  exists lg lis los w junk wg t, bs = w ++ junk /\ psbt_wire lg lis los w
    /\ sizes lg /\ Forall sizes lis /\ Forall sizes los
    /\ map_wire lg wg /\ blen wg <= 4000000
    /\ global0_fine lg t /\ Forall input0_fine lis /\ Forall output0_fine los
    /\ blen lis = blen (tx_input t) /\ blen los = blen (tx_output t).

End Spec.

(** Model of the struct and the codec of src/v2/mod.rs. *)
From Verif Require Import Base OMap Consensus Ext Raw TapTree Serialize MapCodec V2Global V2Input V2Output.
Local Open Scope N_scope.

(** src/v2/mod.rs:499-506 [Psbt]. *)
Record psbt : Type := Psbt {
  p_global : global;  (* 501 *)
  p_inputs : list input;  (* 503 *)
  p_outputs : list output  (* 505 *)
}.

(** Field assignments (Rust's field update, src/v2/mod.rs:499-506). *)
(** src/v2/mod.rs:501, assignment to the field. *)
Definition set_p_global (g : global) (p : psbt) : psbt := Psbt g (p_inputs p) (p_outputs p).
(** src/v2/mod.rs:503, assignment to the field. *)
Definition set_p_inputs (l : list input) (p : psbt) : psbt := Psbt (p_global p) l (p_outputs p).
(** src/v2/mod.rs:505, assignment to the field. *)
Definition set_p_outputs (l : list output) (p : psbt) : psbt := Psbt (p_global p) (p_inputs p) l.

(** src/v2/error.rs:17-34 [DeserializeError]. *)
Inductive deserr : Type :=
| InvalidMagic
| InvalidSeparator
| NoMorePairs
| DecodeGlobal (e : gderr)
| DecodeInput (e : iderr)
| DecodeOutput (e : oderr).

(** src/v2/mod.rs:617 [MAGIC_BYTES], "psbt". *)
Definition MAGIC_BYTES : bytes := [x70; x73; x62; x74].
(** src/v2/mod.rs:622 [PSBT_SERPARATOR]. *)
Definition PSBT_SEPARATOR : byte := xff.

(** src/v2/mod.rs:636-638 and 647-649: [for _ in 0..n { push(decode(d)?) }].  The fuel
    [S (length d)] never runs out because a map takes at least one byte (proved in
    [V2PsbtFacts]); it only avoids turning a hostile count into a unary number. *)
Fixpoint dec_maps {E A} (dec : reader E A) (out : E) (fuel : nat) (n : N) (d : bytes)
    : res E (list A * bytes) :=
  if n =? 0 then Ok ([], d)
  else
    match fuel with
    | O => Err out
    | S f =>
        '(a, r) <- dec d ;;
        '(l, r') <- dec_maps dec out f (n - 1) r ;;
        Ok (a :: l, r')
    end.

Section Psbt.
Context `{X : Ext} `{C : Cfg}.

(** src/v2/mod.rs:592-611 [Psbt::serialize]. *)
Definition psbt_serialize (p : psbt) : bytes :=
  MAGIC_BYTES ++ [PSBT_SEPARATOR] ++ global_serialize (p_global p)
  ++ concat (map input_serialize (p_inputs p))
  ++ concat (map output_serialize (p_outputs p)).

(** src/v2/mod.rs:614-654 [Psbt::deserialize].  [Vec::with_capacity] in lines 634 and
    645 panics with "capacity overflow" when the allocation would be larger than
    [isize::MAX] bytes; smaller allocations are taken to succeed. *)
Definition psbt_deserialize (bs : bytes) : res deserr psbt :=
  _ <- fail_if (negb (bytes_eqb (firstn 4 bs) MAGIC_BYTES)) InvalidMagic ;;
  _ <- fail_if (negb (bytes_eqb (firstn 1 (skipn 4 bs)) [PSBT_SEPARATOR])) InvalidSeparator ;;
  let d := skipn 5 bs in
  '(g, d1) <- map_err DecodeGlobal (global_decode d) ;;
  _ <- panic_unless (g_input_count g * size_input <=? ISIZE_MAX) ;;
  '(inputs, d2) <- map_err DecodeInput
     (dec_maps input_decode (IDDeserPair SNoMorePairs) (S (length d1)) (g_input_count g) d1) ;;
  _ <- panic_unless (g_output_count g * size_output <=? ISIZE_MAX) ;;
  '(outputs, _) <- map_err DecodeOutput
     (dec_maps output_decode (ODDeserPair SNoMorePairs) (S (length d2)) (g_output_count g) d2) ;;
  Ok (Psbt g inputs outputs).

(** src/v2/mod.rs:586 [Psbt::is_finalized]. *)
Definition psbt_is_finalized (p : psbt) : bool := forallb input_is_finalized (p_inputs p).

(** src/v2/mod.rs:664-668 [Psbt::iter_funding_utxos], the list of its items. *)
Definition psbt_funding_utxos (p : psbt) : list (res fundingerr txout) :=
  map input_funding_utxo (p_inputs p).

End Psbt.

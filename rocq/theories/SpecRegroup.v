(** Specification of combining three PSBTs in the two possible groupings, independent of the code. *)
From Verif Require Import Base OMap Consensus Ext Raw Serialize MapCodec V2Global V2Input V2Output V2Psbt V0Input V0Output V0Psbt.
Local Open Scope N_scope.

(** Grouping to the left and to the right. *)
Definition left_first {E A} (f : A -> A -> res E A) (a b c : A) : res E A := ab <- f a b ;; f ab c.
Definition right_first {E A} (f : A -> A -> res E A) (a b c : A) : res E A := bc <- f b c ;; f a bc.

(** The utxos of three inputs for which the grouping does not matter: witness utxos [wa], [wb], [wc]
    and non-witness utxos [na], [nb], [nc]. *)
Definition regroupable (wa wb wc : option txout) (na nb nc : option tx) : Prop :=
  (wa = None -> wb <> None -> nc = None) /\
  (wa <> None -> wb = None -> wc <> None -> na = None -> nb = None /\ nc = None).
Definition regroupable_inputs (i j k : input) : Prop :=
  regroupable (in_witness_utxo i) (in_witness_utxo j) (in_witness_utxo k)
    (in_non_witness_utxo i) (in_non_witness_utxo j) (in_non_witness_utxo k).
Definition regroupable_inputs0 (i j k : input0) : Prop :=
  regroupable (i0_witness_utxo i) (i0_witness_utxo j) (i0_witness_utxo k)
    (i0_non_witness_utxo i) (i0_non_witness_utxo j) (i0_non_witness_utxo k).

(** The same number of inputs and outputs. *)
Definition same_counts (p q : psbt) : Prop :=
  length (p_inputs p) = length (p_inputs q) /\ length (p_outputs p) = length (p_outputs q).
Definition same_counts0 (p q : psbt0) : Prop :=
  length (p0_inputs p) = length (p0_inputs q) /\ length (p0_outputs p) = length (p0_outputs q).

(** The PSBT without the non-witness utxos. *)
Definition drop_utxo (i : input) : input := set_in_non_witness_utxo None i.
Definition without_utxos (p : psbt) : psbt := Psbt (p_global p) (map drop_utxo (p_inputs p)) (p_outputs p).
Definition drop_utxo0 (i : input0) : input0 := set_i0_non_witness_utxo None i.
Definition without_utxos0 (p : psbt0) : psbt0 := set_p0_inputs (map drop_utxo0 (p0_inputs p)) p.

(** A statement about the things at the same position of three lists. *)
Definition nth3 {A} (R : A -> A -> A -> Prop) (l m n : list A) : Prop :=
  forall x a b c, nth_error l x = Some a -> nth_error m x = Some b -> nth_error n x = Some c -> R a b c.

(** A plan to combine many PSBTs: which ones, in which order and in which grouping. *)
Inductive plan (A : Type) : Type :=
| One (p : A)
| Two (first second : plan A).
Arguments One {A} p.
Arguments Two {A} first second.
Fixpoint members {A} (t : plan A) : list A :=
  match t with One p => [p] | Two s t => members s ++ members t end.
Fixpoint carry_out {E A} (f : A -> A -> res E A) (t : plan A) : res E A :=
  match t with
  | One p => Ok p
  | Two s t => a <- carry_out f s ;; b <- carry_out f t ;; f a b
  end.

(** The maps of a PSBT and the key-value pairs in them. *)
Inductive place : Type :=
| GlobalMap
| InputMap (n : nat)
| OutputMap (n : nat).
Section Entry.
Context `{X : Ext} `{C : Cfg}.
Definition entry (p : psbt) (l : place) (e : pair) : Prop :=
  match l with
  | GlobalMap => In e (global_pairs (p_global p))
  | InputMap n => exists i, nth_error (p_inputs p) n = Some i /\ In e (input_pairs i)
  | OutputMap n => exists o, nth_error (p_outputs p) n = Some o /\ In e (output_pairs o)
  end.
Definition entry0 (p : psbt0) (l : place) (e : pair) : Prop :=
  match l with
  | GlobalMap => In e (global0_pairs p)
  | InputMap n => exists i, nth_error (p0_inputs p) n = Some i /\ In e (input0_pairs i)
  | OutputMap n => exists o, nth_error (p0_outputs p) n = Some o /\ In e (output0_pairs o)
  end.
End Entry.

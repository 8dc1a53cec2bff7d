(** Specification: what a build without the feature silent-payments holds of a PSBT of a build
    with the feature.  The fields of BIP-375 become unknown pairs; nothing else changes. *)
From Coq Require Import List Permutation.
From Verif Require Import Base OMap Raw Consensus Ext Serialize MapCodec V2Global V2Input V2Output V2Psbt SpecPsbt SpecSerde.
Local Open Scope N_scope.

(** Entries under a key type; one entry without key data. *)
Definition raw_entries (t : byte) (m : list (bytes * bytes)) : list (key * bytes) :=
  map (fun kv => (Key t (fst kv), snd kv)) m.
Definition raw_entry (t : byte) (o : option bytes) : list (key * bytes) :=
  match o with Some v => [(Key t [], v)] | None => [] end.
Definition le32 (n : N) : bytes :=
  [n2b n; n2b (n / 2 ^ 8); n2b (n / 2 ^ 16); n2b (n / 2 ^ 24)].

(** [h] holds what [g] holds: 0x07 and 0x08 are the key types of the shares and the proofs. *)
Definition plain_global (g h : global) : Prop :=
  set_g_unknowns [] (drop_sp_global g) = set_g_unknowns [] h
  /\ m_sorted sk_key (g_unknowns h)
  /\ Permutation (g_unknowns h) (g_unknowns g ++ raw_entries x07 (g_sp_ecdh_shares g) ++ raw_entries x08 (g_sp_dleq_proofs g)).
(** Key types 0x1D and 0x1E. *)
Definition plain_input (i j : input) : Prop :=
  set_in_unknowns [] (drop_sp_input i) = set_in_unknowns [] j
  /\ m_sorted sk_key (in_unknowns j)
  /\ Permutation (in_unknowns j) (in_unknowns i ++ raw_entries x1d (in_sp_ecdh_shares i) ++ raw_entries x1e (in_sp_dleq_proofs i)).
(** Key types 0x09 and 0x0A; the label is a little-endian number. *)
Definition plain_output (o u : output) : Prop :=
  set_out_unknowns [] (drop_sp_output o) = set_out_unknowns [] u
  /\ m_sorted sk_key (out_unknowns u)
  /\ Permutation (out_unknowns u) (out_unknowns o ++ raw_entry x09 (out_sp_v0_info o) ++ raw_entry x0a (option_map le32 (out_sp_v0_label o))).
Definition plain (p q : psbt) : Prop :=
  plain_global (p_global p) (p_global q)
  /\ Forall2 plain_input (p_inputs p) (p_inputs q)
  /\ Forall2 plain_output (p_outputs p) (p_outputs q).

(** Two operations end alike. *)
Definition same_outcome {E A B} (R : A -> B -> Prop) (r : res E A) (r' : res E B) : Prop :=
  match r, r' with
  | Ok a, Ok b => R a b
  | Err e, Err e' => e = e'
  | Panic, Panic => True
  | _, _ => False
  end.
(** Two outputs do not disagree about the fields of the feature. *)
Definition agrees (o u : output) : Prop :=
  (forall x y, out_sp_v0_info o = Some x -> out_sp_v0_info u = Some y -> x = y)
  /\ (forall x y, out_sp_v0_label o = Some x -> out_sp_v0_label u = Some y -> x = y).
(** No pair of outputs at the same place disagrees. *)
Definition all_agree (p q : psbt) : Prop :=
  forall n o u, nth_error (p_outputs p) n = Some o -> nth_error (p_outputs q) n = Some u -> agrees o u.

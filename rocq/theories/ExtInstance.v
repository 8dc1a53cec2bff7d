(** A concrete instance of the external functions that satisfies every law in
    [ExtLaws].  It is used by the examples beside the theorems and shows that the
    laws are consistent.  It models no code of /repo: the functions are toy
    replacements for SHA-256, RIPEMD-160, libsecp256k1 and the DER parser that
    src/serialize.rs:70-130 and src/v2/map/input.rs:791-822 call. *)
From Verif Require Import Base Ext.
Local Open Scope N_scope.

(** Toy hash standing in for the hash functions called at src/v2/map/input.rs:809. *)
Definition mix (seed : N) (b : bytes) : N :=
  fold_left (fun a x => N.land (a * 65599 + b2n x + 1) 18446744073709551615) b seed.

Definition toy_hash (n : nat) (seed : N) (b : bytes) : bytes := le_enc n (mix seed b).

(** Stand-in for [secp256k1::PublicKey::from_slice] (src/serialize.rs:87-95): a
    compressed key starts with 02 or 03; an uncompressed one is
    04, x, thirty-one zeros and the parity byte. *)
Definition toy_parity (x : byte) : bool := beq x x02 || beq x x03.

Definition toy_secp_uncompress (c : bytes) : bytes :=
  x04 :: tl c ++ repeat x00 31 ++ [hd x00 c].

Definition toy_secp_parse (b : bytes) : option bytes :=
  if Nat.eqb (length b) 33 then
    if toy_parity (hd x00 b) then Some b else None
  else if Nat.eqb (length b) 65 then
    let c := last b x00 :: firstn 32 (tl b) in
    if toy_parity (last b x00) && bytes_eqb b (toy_secp_uncompress c) then Some c else None
  else None.

(** Stand-in for [ecdsa::Signature::from_der] (src/serialize.rs:116). *)
Definition toy_der (b : bytes) : option bytes :=
  if Nat.leb (length b) 72 && beq (hd x00 b) x30 then Some b else None.

(** The instance; the call sites are cited at the fields of [Ext] (Ext.v). *)
Definition toy : Ext := {|
  sha256 := toy_hash 32 7;
  ripemd160 := toy_hash 20 11;
  secp_parse := toy_secp_parse;
  secp_uncompress := toy_secp_uncompress;
  xonly_ok := fun b => negb (bytes_eqb b (zeros 32));
  der_parse := toy_der;
  tap_leaf_hash := fun s v => toy_hash 32 (13 + v) s;
  tap_node_hash := fun a b => toy_hash 32 17 (a ++ b)
|}.

Lemma toy_parse_len b c : toy_secp_parse b = Some c -> length c = 33%nat.
Proof.
  unfold toy_secp_parse. destruct (Nat.eqb_spec (length b) 33) as [E|E].
  - destruct (toy_parity _); congruence.
  - destruct (Nat.eqb_spec (length b) 65) as [E2|E2]; [|discriminate].
    destruct (toy_parity _ && _)%bool; [|discriminate].
    intros H. apply (f_equal (option_map (@length byte))) in H. cbn [option_map] in H.
    assert (H' : length c = length (last b x00 :: firstn 32 (tl b))) by congruence.
    rewrite H'. change (S (length (firstn 32 (tl b))) = 33%nat). rewrite firstn_length.
    destruct b as [|x b]; [discriminate|]. cbn [tl length] in *. lia.
Qed.

Lemma toy_uncompress_len c : length c = 33%nat -> length (toy_secp_uncompress c) = 65%nat.
Proof.
  intros H. unfold toy_secp_uncompress. cbn [length]. rewrite !app_length, repeat_length.
  destruct c as [|x c]; [discriminate|]. cbn [tl length] in *. lia.
Qed.

Lemma toy_parse_parity b c : toy_secp_parse b = Some c -> toy_parity (hd x00 c) = true.
Proof.
  unfold toy_secp_parse. destruct (Nat.eqb_spec (length b) 33) as [E|E].
  - destruct (toy_parity (hd x00 b)) eqn:P; congruence.
  - destruct (Nat.eqb_spec (length b) 65) as [E2|E2]; [|discriminate].
    destruct (toy_parity (last b x00)) eqn:P; [|discriminate]. cbn [andb].
    destruct (bytes_eqb _ _); [|discriminate]. intros [= <-]. exact P.
Qed.

Lemma toy_parse_fix c : length c = 33%nat -> toy_parity (hd x00 c) = true -> toy_secp_parse c = Some c.
Proof. intros H P. unfold toy_secp_parse. rewrite H. cbn [Nat.eqb]. now rewrite P. Qed.

Lemma toy_uncompress_parse c :
  length c = 33%nat -> toy_parity (hd x00 c) = true -> toy_secp_parse (toy_secp_uncompress c) = Some c.
Proof.
  intros H P. unfold toy_secp_parse. rewrite toy_uncompress_len by assumption. cbn [Nat.eqb].
  assert (E1 : last (toy_secp_uncompress c) x00 = hd x00 c).
  { unfold toy_secp_uncompress.
    replace (x04 :: tl c ++ repeat x00 31 ++ [hd x00 c])
      with ((x04 :: tl c ++ repeat x00 31) ++ [hd x00 c]) by (cbn [app]; now rewrite <- app_assoc).
    apply last_last. }
  assert (E2 : firstn 32 (tl (toy_secp_uncompress c)) = tl c).
  { unfold toy_secp_uncompress. cbn [tl]. destruct c as [|x c]; [discriminate|].
    cbn [tl length] in *. injection H as H. rewrite firstn_app, H, Nat.sub_diag, <- H, firstn_all.
    apply app_nil_r. }
  rewrite E1, E2, P.
  assert (E3 : hd x00 c :: tl c = c) by (destruct c; [discriminate|reflexivity]).
  rewrite E3, (proj2 (bytes_eqb_eq _ _) eq_refl). reflexivity.
Qed.

#[global] Instance toy_laws : ExtLaws toy.
Proof.
  constructor; cbn [toy sha256 ripemd160 secp_parse secp_uncompress xonly_ok der_parse tap_leaf_hash tap_node_hash].
  - intros b. apply le_enc_length.
  - intros b. apply le_enc_length.
  - apply toy_parse_len.
  - intros b c H. apply toy_parse_fix; [eapply toy_parse_len|eapply toy_parse_parity]; eassumption.
  - intros b c. unfold toy_secp_parse. destruct (Nat.eqb_spec (length b) 33); [auto|].
    destruct (Nat.eqb_spec (length b) 65); [auto|discriminate].
  - intros b c. unfold toy_secp_parse. intros H E. rewrite E in H. cbn [Nat.eqb] in H.
    destruct (toy_parity _); congruence.
  - intros c H. apply toy_uncompress_len. eapply toy_parse_len; eassumption.
  - reflexivity.
  - intros c H. apply toy_uncompress_parse; [eapply toy_parse_len|eapply toy_parse_parity]; eassumption.
  - intros b c. unfold toy_secp_parse. intros H E _. rewrite E in H. cbn [Nat.eqb] in H.
    destruct (toy_parity _); [|discriminate]. cbn [andb] in H.
    destruct (bytes_eqb b _) eqn:Eb; [|discriminate]. apply bytes_eqb_eq in Eb. congruence.
  - unfold toy_der. intros b c H. destruct (Nat.leb (length b) 72 && beq (hd x00 b) x30)%bool eqn:E; [|discriminate].
    injection H as <-. now rewrite E.
  - unfold toy_der. intros b c H. destruct (Nat.leb_spec (length b) 72); [|discriminate].
    destruct (beq _ _); [|discriminate]. now injection H as <-.
  - intros s v. apply le_enc_length.
  - intros a b. apply le_enc_length.
Qed.

(** Build configurations for the examples; 1000 bytes is the order of magnitude of
    the sizes of the structs at src/v2/map/input.rs:45 and src/v2/map/output.rs:29. *)
Definition cfg_of (sp debug : bool) : Cfg :=
  {| feat_sp := sp; debug_assertions := debug; size_input := 1000; size_output := 500 |}.

#[global] Instance cfg_of_laws sp debug : CfgLaws (cfg_of sp debug).
Proof. constructor; reflexivity. Qed.

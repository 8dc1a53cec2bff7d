(** C149: the messages that the hashes compress. *)
From Coq Require Import ZArith.
From Verif Require Import Base Ext RealExt RealLaws SpecReal PropertiesReal.
Local Open Scope N_scope.

(** FIPS 180-4, section 5.1.1: the message, a bit, as few zero bits as lead to whole blocks of 64
    bytes, and the length in bits as a number of 8 bytes. *)
Definition padding (big : bool) (b p : bytes) : Prop :=
  exists k len, p = b ++ [x80] ++ repeat x00 k ++ len /\ (k < 64)%nat /\ (length p mod 64 = 0)%nat
    /\ length len = 8%nat /\ number (if big then len else rev len) = (8 * Z.of_nat (length b))%Z.

Lemma chunks_whole n : (0 < n)%nat -> forall q fuel b, length b = (q * n)%nat -> (q <= fuel)%nat ->
  concat (chunks fuel n b) = b /\ Forall (fun c => length c = n) (chunks fuel n b).
Proof.
  intros Hn. induction q as [|q IH]; intros fuel b L F.
  - destruct b; [|discriminate]. destruct fuel; cbn; auto.
  - destruct fuel as [|fuel]; [lia|]. destruct b as [|x b]; [cbn in L; lia|]. cbn [chunks].
    destruct (IH fuel (skipn n (x :: b))) as [E A]; [rewrite skipn_length; lia|lia|]. cbn [concat]. rewrite E. split; [apply firstn_skipn|].
    constructor; [rewrite firstn_length; lia|assumption].
Qed.
Lemma pad_spec big b : blen b < 2 ^ 61 -> padding big b (pad64 (if big then be_bytes 8 else le_enc 8) b).
Proof.
  intros H. unfold pad64, padding. cbv zeta. exists (N.to_nat ((119 - blen b mod 64) mod 64)), ((if big then be_bytes 8 else le_enc 8) (8 * blen b)).
  assert (L : length ((if big then be_bytes 8 else le_enc 8) (8 * blen b)) = 8%nat) by (destruct big; [unfold be_bytes; rewrite rev_length|]; apply le_enc_length).
  pose proof (N.mod_lt (blen b) 64 ltac:(lia)) as M. pose proof (N.mod_lt (119 - blen b mod 64) 64 ltac:(lia)) as M2.
  split; [reflexivity|]. split; [lia|]. split; [|split; [exact L|]].
  - rewrite !app_length. unfold zeros. rewrite repeat_length, L. cbn [length].
    pose proof (N.div_mod (blen b) 64 ltac:(lia)) as D. pose proof (N.div_mod (119 - blen b mod 64) 64 ltac:(lia)) as D2.
    set (q := blen b / 64) in *. set (r := blen b mod 64) in *. set (k := (119 - r) mod 64) in *. set (j := (119 - r) / 64) in *.
    replace (length b + (1 + (N.to_nat k + 8)))%nat with (N.to_nat (q + 2 - j) * 64)%nat by (unfold blen in D; lia).
    apply Nat.mod_mul. lia.
  - rewrite number_num. unfold be_bytes. transitivity (Z.of_N (be_num (be_bytes 8 (8 * blen b)))); [destruct big; reflexivity|].
    rewrite be_num_bytes; [unfold blen; lia|]. change (256 ^ N.of_nat 8) with (8 * 2 ^ 61). lia.
Qed.

Lemma app_inj_tail_len {A} (a b c d : list A) : length b = length d -> a ++ b = c ++ d -> a = c /\ b = d.
Proof.
  intros L E. assert (La : length a = length c) by (apply (f_equal (@length A)) in E; rewrite !app_length in E; lia).
  revert c La E. induction a as [|x a IH]; intros [|y c] La E; try discriminate La; cbn in *; [auto|].
  injection E as -> E. destruct (IH c) as [-> ->]; auto.
Qed.

(** Each hash is an iteration over the blocks of the padded message. *)
Theorem C149_sha256_blocks : forall b, blen b < 2 ^ 61 -> exists blocks,
  padding true b (concat blocks) /\ Forall (fun c => length c = 64%nat) blocks
  /\ real_sha256 b = flat_map (be_bytes 4) (fold_left sha_block blocks H256).
Proof.
  intros b H. pose proof (pad_spec true b H) as P. cbn [padding] in P. unfold real_sha256. cbv zeta. set (m := pad64 (be_bytes 8) b) in *.
  assert (M : (length m mod 64 = 0)%nat) by (destruct P as (k & len & _ & _ & M & _); exact M).
  apply Nat.mod_divides in M as [q M]; [|lia]. destruct (chunks_whole 64 ltac:(lia) q (length m) m) as [E A]; [lia|lia|].
  exists (chunks (length m) 64 m). rewrite E. auto.
Qed.
Print Assumptions C149_sha256_blocks.

Theorem C149_ripemd160_blocks : forall b, blen b < 2 ^ 61 -> exists blocks,
  padding false b (concat blocks) /\ Forall (fun c => length c = 64%nat) blocks
  /\ real_ripemd160 b = flat_map (le_enc 4) (fold_left rmd_block blocks [0x67452301; 0xefcdab89; 0x98badcfe; 0x10325476; 0xc3d2e1f0]).
Proof.
  intros b H. pose proof (pad_spec false b H) as P. unfold real_ripemd160. cbv zeta. set (m := pad64 (le_enc 8) b) in *.
  assert (M : (length m mod 64 = 0)%nat) by (destruct P as (k & len & _ & _ & M & _); exact M).
  apply Nat.mod_divides in M as [q M]; [|lia]. destruct (chunks_whole 64 ltac:(lia) q (length m) m) as [E A]; [lia|lia|].
  exists (chunks (length m) 64 m). rewrite E. auto.
Qed.
Print Assumptions C149_ripemd160_blocks.

(** No two messages are padded to the same blocks, so a collision is one of the compression. *)
Theorem C149_padding_inj : forall big b b' p, padding big b p -> padding big b' p -> b = b'.
Proof.
  intros big b b' p (k & len & E & _ & _ & L & V) (k' & len' & E' & _ & _ & L' & V'). rewrite E in E'.
  rewrite !app_assoc in E'. apply app_inj_tail_len in E' as [E' El]; [|congruence]. subst len'.
  assert (Lb : length b = length b') by lia. rewrite <- !app_assoc in E'.
  clear - E' Lb. revert b' Lb E'. induction b as [|x b IH]; intros [|x' b'] Lb E'; try discriminate Lb; [reflexivity|].
  cbn in E', Lb. injection E' as -> E'. f_equal. apply IH; [lia|exact E'].
Qed.
Print Assumptions C149_padding_inj.

(** 56 bytes need a second block; 55 do not. *)
Example C149_padding_case :
  length (pad64 (be_bytes 8) (repeat x61 55)) = 64%nat /\ length (pad64 (be_bytes 8) (repeat x61 56)) = 128%nat
  /\ padding true (repeat x61 56) (pad64 (be_bytes 8) (repeat x61 56)).
Proof. split; [vm_compute; reflexivity|]. split; [vm_compute; reflexivity|]. apply (pad_spec true). vm_compute. reflexivity. Qed.

(** C149: a collision of SHA-256 is one of its compression function. *)
From Coq Require Import ZArith.
From Verif Require Import Base Ext RealExt RealLaws SpecReal PropertiesReal PropertiesPad.
Local Open Scope N_scope.

Lemma words_inj l l' : Forall (fun x => x < 2 ^ 32) l -> Forall (fun x => x < 2 ^ 32) l' ->
  flat_map (be_bytes 4) l = flat_map (be_bytes 4) l' -> l = l'.
Proof.
  assert (L : forall x, length (be_bytes 4 x) = 4%nat) by (intros x; unfold be_bytes; rewrite rev_length; apply le_enc_length).
  intros H. revert l'. induction H as [|x l Hx _ IH]; intros l' H' E; destruct H' as [|y l' Hy H']; cbn [flat_map] in E; [reflexivity| | |].
  - apply (f_equal (@length byte)) in E. rewrite app_length, L in E. discriminate E.
  - apply (f_equal (@length byte)) in E. rewrite app_length, L in E. discriminate E.
  - assert (E2 : be_bytes 4 x = be_bytes 4 y /\ flat_map (be_bytes 4) l = flat_map (be_bytes 4) l').
    { apply app_inj_tail_len; [|exact E]. apply (f_equal (@length byte)) in E. rewrite !app_length, !L in E. lia. }
    destruct E2 as [E1 E2]. f_equal; [|now apply IH].
    rewrite <- (be_num_bytes 4 x), <- (be_num_bytes 4 y) by assumption. now rewrite E1.
Qed.
Lemma w32_lt x : w32 x < 2 ^ 32.
Proof. unfold w32. change 0xffffffff with (N.ones 32). rewrite N.land_ones. apply N.mod_lt. discriminate. Qed.
Lemma state_words l h : Forall (fun x => x < 2 ^ 32) h -> Forall (fun x => x < 2 ^ 32) (fold_left sha_block l h).
Proof.
  revert h. induction l as [|b l IH]; intros h H; [exact H|]. cbn [fold_left]. apply IH. unfold sha_block. cbv zeta.
  apply Forall_map, Forall_forall. intros p _. apply w32_lt.
Qed.
Lemma bytes_dec : forall x y : bytes, {x = y} + {x <> y}.
Proof. intros x y. destruct (bytes_eqb x y) eqn:E; [left; now apply bytes_eqb_eq|right]. intros ->. assert (bytes_eqb y y = true) by now apply bytes_eqb_eq. congruence. Qed.
(** Two different steps of the iterations over [l] and [l'] with the same result. *)
Definition step_collision (f : list N -> bytes -> list N) (h : list N) (l l' : list bytes) : Prop :=
  exists i x r i' x' r', l = i ++ x :: r /\ l' = i' ++ x' :: r'
    /\ f (fold_left f i h) x = f (fold_left f i' h) x' /\ (fold_left f i h, x) <> (fold_left f i' h, x').
Lemma fold_collision (f : list N -> bytes -> list N) h l : forall l', length l = length l' ->
  fold_left f l h = fold_left f l' h -> l = l' \/ step_collision f h l l'.
Proof.
  induction l as [|x l IH] using rev_ind; intros l' L E.
  - destruct l'; [auto|discriminate].
  - destruct l' as [|x' l' _] using rev_ind; [rewrite app_length in L; cbn in L; lia|]. rewrite !fold_left_app in E. cbn [fold_left] in E.
    rewrite !app_length in L. cbn [length] in L.
    destruct (bytes_dec x x') as [->|Hx]; [|right; exists l, x, [], l', x', []; repeat (split; [auto|]); congruence].
    destruct (list_eq_dec N.eq_dec (fold_left f l h) (fold_left f l' h)) as [Es|Es]; [|right; exists l, x', [], l', x', []; repeat (split; [auto|]); congruence].
    destruct (IH l' ltac:(lia) Es) as [->|(i & y & r & i' & y' & r' & -> & -> & C)]; [auto|right].
    exists i, y, (r ++ [x']), i', y', (r' ++ [x']). rewrite <- !app_assoc. cbn [app]. auto.
Qed.
Lemma concat_length64 l : Forall (fun c : bytes => length c = 64%nat) l -> length (concat l) = (64 * length l)%nat.
Proof. induction 1 as [|c l Hc _ IH]; [reflexivity|]. cbn [concat length]. rewrite app_length, Hc, IH. lia. Qed.
Lemma concat_inj64 l : Forall (fun c : bytes => length c = 64%nat) l -> forall l', Forall (fun c => length c = 64%nat) l' -> concat l = concat l' -> l = l'.
Proof.
  induction 1 as [|c l Hc Hl IH]; intros l' H' E; destruct H' as [|c' l' Hc' H']; cbn [concat] in E; [reflexivity| | |].
  - apply (f_equal (@length byte)) in E. rewrite app_length, Hc' in E. discriminate E.
  - apply (f_equal (@length byte)) in E. rewrite app_length, Hc in E. discriminate E.
  - assert (E2 : c = c' /\ concat l = concat l').
    { apply app_inj_tail_len; [|exact E]. apply (f_equal (@length byte)) in E. rewrite !app_length, Hc, Hc' in E. lia. }
    destruct E2 as [-> E2]. f_equal. now apply IH.
Qed.
(** The last 8 bytes of the last block. *)
Lemma last_len big b l : Forall (fun c => length c = 64%nat) l -> padding big b (concat l) ->
  exists i x, l = i ++ [x] /\ number (if big then skipn 56 x else rev (skipn 56 x)) = (8 * Z.of_nat (length b))%Z.
Proof.
  intros F (k & len & E & _ & _ & L & V). destruct l as [|x i _] using rev_ind; [cbn in E; destruct b; discriminate E|].
  exists i, x. split; [reflexivity|]. rewrite concat_app in E. cbn [concat] in E. rewrite app_nil_r in E.
  apply Forall_app in F as [_ F]. inversion F as [|? ? Hx _]; subst. rewrite <- (firstn_skipn 56 x), !app_assoc in E.
  apply app_inj_tail_len in E as [_ E]; [now rewrite E|]. rewrite skipn_length, Hx, L. reflexivity.
Qed.
Lemma padding_length big b b' p p' : length b = length b' -> padding big b p -> padding big b' p' -> length p = length p'.
Proof.
  intros Lb (k & len & E & K & M & L & _) (k' & len' & E' & K' & M' & L' & _).
  apply (f_equal (@length byte)) in E, E'. rewrite !app_length, repeat_length in E, E'. cbn [length] in E, E'.
  apply Nat.mod_divides in M as [q M]; [|lia]. apply Nat.mod_divides in M' as [q' M']; [|lia]. lia.
Qed.

(** Two messages with the same hash give two steps of the iterations over their blocks, with
    different states or blocks and the same result: a collision of the compression function, among
    what is compressed for these messages. *)
Theorem C149_sha256_collision : forall b b', blen b < 2 ^ 61 -> blen b' < 2 ^ 61 -> b <> b' -> real_sha256 b = real_sha256 b' ->
  exists l l', padding true b (concat l) /\ padding true b' (concat l')
    /\ Forall (fun c => length c = 64%nat) l /\ Forall (fun c => length c = 64%nat) l' /\ step_collision sha_block H256 l l'.
Proof.
  intros b b' H H' N E. destruct (C149_sha256_blocks b H) as (l & P & F & R). destruct (C149_sha256_blocks b' H') as (l' & P' & F' & R').
  rewrite R, R' in E. assert (HH : Forall (fun x => x < 2 ^ 32) H256) by (repeat constructor).
  apply words_inj in E; [|now apply state_words|now apply state_words]. exists l, l'. do 4 (split; [assumption|]).
  destruct (Nat.eq_dec (length l) (length l')) as [L|L].
  - destruct (fold_collision sha_block H256 l l' L E) as [Q|C]; [|exact C]. subst l'. exfalso. apply N. eapply C149_padding_inj; [exact P|exact P'].
  - destruct (last_len true b l F P) as (i & x & -> & V). destruct (last_len true b' l' F' P') as (i' & x' & -> & V').
    destruct (bytes_dec x x') as [->|Hx].
    + exfalso. apply L. assert (Lb : length b = length b') by (rewrite V in V'; lia). pose proof (padding_length true b b' _ _ Lb P P') as Lp.
      rewrite !concat_length64 in Lp by assumption. apply (Nat.mul_cancel_l _ _ 64); [lia|exact Lp].
    + rewrite !fold_left_app in E. cbn [fold_left] in E. exists i, x, [], i', x', []. repeat (split; [auto|]). congruence.
Qed.
Print Assumptions C149_sha256_collision.

(** For a function that ignores what it compresses the hypotheses of [fold_collision] hold of any
    two lists, and the step is found. *)
Example step_collision_case : step_collision (fun _ _ => [0]) [1] [[x01]; [x02]] [[x01]; [x03]].
Proof. destruct (fold_collision (fun _ _ => [0]) [1] [[x01]; [x02]] [[x01]; [x03]] eq_refl eq_refl) as [E|C]; [discriminate E|exact C]. Qed.

(** Basic vocabulary of the model: results with an explicit panic value, bytes,
    little endian integers, readers and the lexicographic order.

    Nothing in this file models a particular function of the crate; it models
    the Rust built-ins the crate is written in ([Result], panics, [u8], [u32],
    [u64], [&[u8]] readers, slice ordering). *)
From Coq Require Export List NArith ZArith Arith Lia Bool.
From Coq Require Export Init.Byte.
From Coq Require Import Strings.Byte.
From Coq Require Export ZifyBool ZifyNat ZifyN.
Export ListNotations.
Local Open Scope N_scope.
Ltac Zify.zify_post_hook ::= Z.div_mod_to_equations.

(** ** Results *)

(** Rust's [Result<A, E>] plus a third outcome for a panic
    (a failed [expect], an index out of bounds, an arithmetic underflow, ...). *)
Inductive res (E A : Type) : Type :=
| Ok (a : A)
| Err (e : E)
| Panic.
Arguments Ok {E A} a.
Arguments Err {E A} e.
Arguments Panic {E A}.

(** Rust's [?] operator without error conversion. *)
Definition bind {E A B} (m : res E A) (k : A -> res E B) : res E B :=
  match m with
  | Ok a => k a
  | Err e => Err e
  | Panic => Panic
  end.

Notation "x <- m ;; k" := (bind m (fun x => k))
  (at level 61, m at next level, right associativity).
Notation "' p <- m ;; k" := (bind m (fun x => match x with p => k end))
  (at level 61, p pattern, m at next level, right associativity).

(** [Result::map_err]; also the [From] conversion performed by [?]. *)
Definition map_err {E F A} (f : E -> F) (m : res E A) : res F A :=
  match m with
  | Ok a => Ok a
  | Err e => Err (f e)
  | Panic => Panic
  end.

(** [Option::ok_or]. *)
Definition ok_or {E A} (o : option A) (e : E) : res E A :=
  match o with Some a => Ok a | None => Err e end.

(** [Option::expect] / [Result::expect]: panics when there is no value. *)
Definition expect {E A} (o : option A) : res E A :=
  match o with Some a => Ok a | None => Panic end.

(** An early [return Err(e)] when the condition holds. *)
Definition fail_if {E} (b : bool) (e : E) : res E unit :=
  if b then Err e else Ok tt.

(** [debug_assert!] / [assert!] style check: panics when the condition fails. *)
Definition panic_unless {E} (b : bool) : res E unit :=
  if b then Ok tt else Panic.

Definition is_ok {E A} (m : res E A) : bool :=
  match m with Ok _ => true | _ => false end.
Definition is_panic {E A} (m : res E A) : bool :=
  match m with Panic => true | _ => false end.

(** Inversion of a successful sequence of binds. *)
Lemma bind_ok {E A B} (m : res E A) (k : A -> res E B) b :
  bind m k = Ok b -> exists a, m = Ok a /\ k a = Ok b.
Proof. destruct m as [a | e |]; cbn; intros H; try discriminate. eauto. Qed.

Lemma map_err_ok {E F A} (f : E -> F) (m : res E A) a :
  map_err f m = Ok a -> m = Ok a.
Proof. destruct m; cbn; intros H; congruence. Qed.

Lemma ok_or_ok {E A} (o : option A) (e : E) a : ok_or o e = Ok a -> o = Some a.
Proof. destruct o; cbn; intros H; congruence. Qed.

Lemma fail_if_ok {E} b (e : E) u : fail_if b e = Ok u -> b = false.
Proof. destruct b; cbn; intros H; congruence. Qed.

Lemma panic_unless_ok {E} b u : panic_unless (E:=E) b = Ok u -> b = true.
Proof. destruct b; cbn; intros H; congruence. Qed.

(** [inv_bind H]: decompose [H : bind ... = Ok _] completely. *)
Ltac inv_bind H :=
  let a := fresh "a" in let Ha := fresh "Ha" in let Hk := fresh "Hk" in
  apply bind_ok in H; destruct H as [a [Ha Hk]].

(** Option equality helpers. *)
Definition is_some {A} (o : option A) : bool := match o with Some _ => true | None => false end.
Definition is_none {A} (o : option A) : bool := negb (is_some o).
Definition opt_default {A} (d : A) (o : option A) : A := match o with Some a => a | None => d end.

(** A predicate lifted to options. *)
Definition opt_all {A} (P : A -> Prop) (o : option A) : Prop :=
  match o with Some a => P a | None => True end.

(** ** Bytes *)

Definition bytes := list byte.

(** [u8 as N]. *)
Definition b2n (b : byte) : N := Byte.to_N b.
(** [n as u8] (truncating). *)
Definition n2b (n : N) : byte :=
  match Byte.of_N (n mod 256) with Some b => b | None => x00 end.

(** Length of a slice as a [usize]. *)
Definition blen {A} (l : list A) : N := N.of_nat (length l).

Lemma b2n_lt b : b2n b < 256.
Proof. unfold b2n. pose proof (Byte.to_N_bounded b). lia. Qed.

Lemma n2b_b2n b : n2b (b2n b) = b.
Proof.
  unfold n2b. rewrite N.mod_small by apply b2n_lt.
  unfold b2n. now rewrite Byte.of_to_N.
Qed.

Lemma b2n_n2b n : n < 256 -> b2n (n2b n) = n.
Proof.
  intros H. unfold n2b, b2n. rewrite N.mod_small by lia.
  destruct (Byte.of_N n) eqn:E.
  - now apply Byte.to_of_N in E.
  - apply Byte.of_N_None_iff in E. lia.
Qed.

Lemma b2n_n2b_mod n : b2n (n2b n) = n mod 256.
Proof.
  assert (H : n2b n = n2b (n mod 256)).
  { unfold n2b. rewrite N.mod_mod by lia. reflexivity. }
  rewrite H. apply b2n_n2b. apply N.mod_lt. lia.
Qed.

Lemma b2n_inj a b : b2n a = b2n b -> a = b.
Proof. intros H. rewrite <- (n2b_b2n a), <- (n2b_b2n b). now rewrite H. Qed.

(** Equality of two [u8]. *)
Definition beq (a b : byte) : bool := b2n a =? b2n b.
Lemma beq_eq a b : beq a b = true <-> a = b.
Proof.
  unfold beq. rewrite N.eqb_eq. split; [apply b2n_inj | congruence].
Qed.
Lemma beq_refl a : beq a a = true.
Proof. now apply beq_eq. Qed.
Lemma beq_neq a b : beq a b = false <-> a <> b.
Proof. rewrite <- beq_eq. destruct (beq a b); split; congruence. Qed.

(** Equality of two byte slices. *)
Fixpoint bytes_eqb (a b : bytes) : bool :=
  match a, b with
  | [], [] => true
  | x :: a', y :: b' => beq x y && bytes_eqb a' b'
  | _, _ => false
  end.
Lemma bytes_eqb_eq a b : bytes_eqb a b = true <-> a = b.
Proof.
  revert b; induction a as [|x a IH]; intros [|y b]; cbn;
    try (split; congruence).
  rewrite andb_true_iff, beq_eq, IH. split; [intros [-> ->] | intros [= -> ->]]; auto.
Qed.
Lemma bytes_eqb_refl a : bytes_eqb a a = true.
Proof. now apply bytes_eqb_eq. Qed.
Lemma bytes_eqb_neq a b : bytes_eqb a b = false <-> a <> b.
Proof. rewrite <- bytes_eqb_eq. destruct (bytes_eqb a b); split; congruence. Qed.

Lemma blen_app {A} (a b : list A) : blen (a ++ b) = blen a + blen b.
Proof. unfold blen. rewrite app_length. lia. Qed.
Lemma blen_cons {A} x (a : list A) : blen (x :: a) = 1 + blen a.
Proof. unfold blen. cbn [length]. lia. Qed.
Lemma blen_nil {A} : blen (@nil A) = 0.
Proof. reflexivity. Qed.

(** [slice::get] with a [usize] index. *)
Fixpoint nth_N {A} (l : list A) (n : N) : option A :=
  match l with
  | [] => None
  | x :: l' => if n =? 0 then Some x else nth_N l' (n - 1)
  end.
Lemma nth_N_nth {A} (l : list A) : forall n, nth_N l n = nth_error l (N.to_nat n).
Proof.
  induction l as [|x l IH]; intros n; cbn [nth_N].
  - now destruct (N.to_nat n).
  - destruct (N.eqb_spec n 0) as [->|H]; [reflexivity|].
    rewrite IH. replace (N.to_nat n) with (S (N.to_nat (n - 1))) by lia. reflexivity.
Qed.
Lemma nth_N_some {A} (l : list A) n : n < blen l -> exists a, nth_N l n = Some a.
Proof.
  intros H. rewrite nth_N_nth. destruct (nth_error l (N.to_nat n)) eqn:E; eauto.
  apply nth_error_None in E. unfold blen in H. lia.
Qed.
Lemma nth_N_none {A} (l : list A) n : nth_N l n = None <-> blen l <= n.
Proof. rewrite nth_N_nth, nth_error_None. unfold blen. lia. Qed.

(** [n] zero bytes. *)
Definition zeros (n : nat) : bytes := repeat x00 n.

(** ** Little endian integers ([u16], [u32], [u64]) *)

Fixpoint le_enc (k : nat) (n : N) : bytes :=
  match k with
  | O => []
  | S k' => n2b (n mod 256) :: le_enc k' (n / 256)
  end.

Fixpoint le_dec (bs : bytes) : N :=
  match bs with
  | [] => 0
  | b :: r => b2n b + 256 * le_dec r
  end.

Lemma le_enc_length k n : length (le_enc k n) = k.
Proof. revert n; induction k as [|k IH]; intros n; cbn [le_enc length]; auto. Qed.

Lemma pow256_S k : 256 ^ N.of_nat (S k) = 256 * 256 ^ N.of_nat k.
Proof. rewrite Nat2N.inj_succ, N.pow_succ_r'. reflexivity. Qed.

Lemma le_dec_enc k n : n < 256 ^ N.of_nat k -> le_dec (le_enc k n) = n.
Proof.
  revert n; induction k as [|k IH]; intros n Hn.
  - cbn in Hn. cbn. lia.
  - rewrite pow256_S in Hn. cbn [le_enc le_dec].
    rewrite b2n_n2b by (apply N.mod_lt; lia).
    rewrite IH.
    + pose proof (N.div_mod n 256). lia.
    + apply N.div_lt_upper_bound; lia.
Qed.

Lemma le_dec_lt bs : le_dec bs < 256 ^ N.of_nat (length bs).
Proof.
  induction bs as [|b r IH]; [cbn; lia|].
  cbn [length le_dec]. rewrite pow256_S. pose proof (b2n_lt b). lia.
Qed.

Lemma le_enc_dec bs : le_enc (length bs) (le_dec bs) = bs.
Proof.
  induction bs as [|b r IH]; [reflexivity|].
  cbn [length le_dec le_enc]. pose proof (b2n_lt b) as Hb.
  replace ((b2n b + 256 * le_dec r) mod 256) with (b2n b).
  2:{ rewrite N.mul_comm, N.mod_add by lia. now rewrite N.mod_small. }
  replace ((b2n b + 256 * le_dec r) / 256) with (le_dec r).
  2:{ rewrite N.mul_comm, N.div_add by lia. rewrite N.div_small by lia. lia. }
  now rewrite n2b_b2n, IH.
Qed.

Lemma le_enc_inj k m n :
  m < 256 ^ N.of_nat k -> n < 256 ^ N.of_nat k -> le_enc k m = le_enc k n -> m = n.
Proof.
  intros Hm Hn H. rewrite <- (le_dec_enc k m Hm), <- (le_dec_enc k n Hn). now rewrite H.
Qed.

(** Bounds of the Rust integer types. *)
Definition U8 : N := 256.
Definition U16 : N := 65536.
Definition U32 : N := 4294967296.
Definition U64 : N := 18446744073709551616.
(** [isize::MAX] on a 64 bit target. *)
Definition ISIZE_MAX : N := 9223372036854775807.

(** ** Readers *)

(** Read exactly [n] bytes ([Read::read_exact]); [None] is an unexpected end of input. *)
Definition take (n : N) (bs : bytes) : option (bytes * bytes) :=
  if blen bs <? n then None
  else Some (firstn (N.to_nat n) bs, skipn (N.to_nat n) bs).

Lemma take_app a rest : take (blen a) (a ++ rest) = Some (a, rest).
Proof.
  unfold take. rewrite blen_app.
  destruct (blen a + blen rest <? blen a) eqn:E; [lia|].
  unfold blen. rewrite Nat2N.id.
  rewrite firstn_app, skipn_app, Nat.sub_diag, firstn_all, skipn_all.
  cbn. now rewrite app_nil_r.
Qed.

Lemma take_app_n n a rest : blen a = n -> take n (a ++ rest) = Some (a, rest).
Proof. intros <-. apply take_app. Qed.

Lemma take_some n bs a rest :
  take n bs = Some (a, rest) -> bs = a ++ rest /\ blen a = n.
Proof.
  unfold take. destruct (blen bs <? n) eqn:E; [discriminate|].
  intros [= <- <-]. split.
  - symmetry; apply firstn_skipn.
  - unfold blen in *. rewrite firstn_length. lia.
Qed.

Lemma take_none n bs : take n bs = None <-> blen bs < n.
Proof.
  unfold take. destruct (blen bs <? n) eqn:E; split; intros; try discriminate; try lia; auto.
Qed.

(** A reader consumes a prefix of its input. *)
Definition reader (E A : Type) := bytes -> res E (A * bytes).

(** [rt wf enc dec]: decoding an encoding returns the value and leaves the rest. *)
Definition rt {E A} (wf : A -> Prop) (enc : A -> bytes) (dec : reader E A) : Prop :=
  forall a rest, wf a -> dec (enc a ++ rest) = Ok (a, rest).

(** [canon wf enc dec]: only encodings of well-formed values are accepted. *)
Definition canon {E A} (wf : A -> Prop) (enc : A -> bytes) (dec : reader E A) : Prop :=
  forall bs a rest, dec bs = Ok (a, rest) -> bs = enc a ++ rest /\ wf a.

(** [nopanic dec]: the reader never panics. *)
Definition nopanic {E A} (dec : reader E A) : Prop := forall bs, dec bs <> Panic.

(** Read [n] items one after the other ([for _ in 0..n { push(decode(r)?) }]). *)
Fixpoint dec_n {E A} (dec : reader E A) (n : nat) (bs : bytes) : res E (list A * bytes) :=
  match n with
  | O => Ok ([], bs)
  | S n' =>
      '(a, r) <- dec bs ;;
      '(l, r') <- dec_n dec n' r ;;
      Ok (a :: l, r')
  end.

Definition enc_all {A} (enc : A -> bytes) (l : list A) : bytes := concat (map enc l).

Lemma enc_all_cons {A} (enc : A -> bytes) a l : enc_all enc (a :: l) = enc a ++ enc_all enc l.
Proof. reflexivity. Qed.
Lemma enc_all_app {A} (enc : A -> bytes) a l : enc_all enc (a ++ l) = enc_all enc a ++ enc_all enc l.
Proof. unfold enc_all. now rewrite map_app, concat_app. Qed.

Lemma dec_n_rt {E A} (wf : A -> Prop) enc (dec : reader E A) :
  rt wf enc dec ->
  forall l rest, Forall wf l -> dec_n dec (length l) (enc_all enc l ++ rest) = Ok (l, rest).
Proof.
  intros Hrt l rest H. induction H as [|a l Ha Hl IH]; [reflexivity|].
  cbn [length dec_n]. rewrite enc_all_cons, <- app_assoc, Hrt by assumption.
  cbn. rewrite IH. reflexivity.
Qed.

Lemma dec_n_canon {E A} (wf : A -> Prop) enc (dec : reader E A) :
  canon wf enc dec ->
  forall n bs l rest, dec_n dec n bs = Ok (l, rest) ->
    bs = enc_all enc l ++ rest /\ Forall wf l /\ length l = n.
Proof.
  intros Hc n; induction n as [|n IH]; intros bs l rest H; cbn in H.
  - injection H as <- <-. auto.
  - inv_bind H. destruct a as [a r]. inv_bind Hk. destruct a0 as [l' r'].
    injection Hk0 as <- <-.
    apply Hc in Ha as [-> Hwf]. apply IH in Ha0 as (-> & Hl & Hn).
    rewrite enc_all_cons, app_assoc. cbn [length]. auto.
Qed.

Lemma dec_n_nopanic {E A} (dec : reader E A) :
  nopanic dec -> forall n bs, dec_n dec n bs <> Panic.
Proof.
  intros Hp n; induction n as [|n IH]; intros bs; cbn; [discriminate|].
  destruct (dec bs) as [[a r]| |] eqn:Ed; cbn; try discriminate.
  2:{ now apply Hp in Ed. }
  specialize (IH r). destruct (dec_n dec n r) as [[l r']| |]; cbn; congruence.
Qed.

(** A canonical reader with a round trip ignores what follows. *)
Lemma canon_local {E A} (wf : A -> Prop) enc (dec : reader E A) :
  rt wf enc dec -> canon wf enc dec ->
  forall bs a rest t, dec bs = Ok (a, rest) -> dec (bs ++ t) = Ok (a, rest ++ t).
Proof.
  intros Hrt Hc bs a rest t H. apply Hc in H as [-> Hwf].
  rewrite <- app_assoc. now apply Hrt.
Qed.

(** ** Lexicographic order (Rust's [Ord] on slices and tuples) *)

Fixpoint lex (a b : list N) : comparison :=
  match a, b with
  | [], [] => Eq
  | [], _ :: _ => Lt
  | _ :: _, [] => Gt
  | x :: a', y :: b' =>
      match x ?= y with
      | Eq => lex a' b'
      | c => c
      end
  end.

Lemma lex_eq a b : lex a b = Eq <-> a = b.
Proof.
  revert b; induction a as [|x a IH]; intros [|y b]; cbn; try (split; congruence).
  destruct (N.compare_spec x y) as [->|H|H].
  - rewrite IH. split; congruence.
  - split; [discriminate | intros [= -> _]; lia].
  - split; [discriminate | intros [= -> _]; lia].
Qed.
Lemma lex_refl a : lex a a = Eq.
Proof. now apply lex_eq. Qed.

Lemma lex_antisym a b : lex b a = CompOpp (lex a b).
Proof.
  revert b; induction a as [|x a IH]; intros [|y b]; cbn; auto.
  rewrite N.compare_antisym. destruct (x ?= y); cbn; auto.
Qed.

Lemma lex_lt_trans a b c : lex a b = Lt -> lex b c = Lt -> lex a c = Lt.
Proof.
  revert b c; induction a as [|x a IH]; intros [|y b] [|z c]; cbn; try congruence.
  destruct (N.compare_spec x y) as [->|H1|H1]; try discriminate.
  - destruct (N.compare_spec y z) as [->|H2|H2]; try discriminate; eauto.
  - intros _. destruct (N.compare_spec y z) as [->|H2|H2]; try discriminate; intros _.
    + destruct (N.compare_spec x z); auto; lia.
    + destruct (N.compare_spec x z); auto; lia.
Qed.

Lemma lex_lt_irrefl a : lex a a <> Lt.
Proof. rewrite lex_refl. discriminate. Qed.

Lemma lex_gt_lt a b : lex a b = Gt <-> lex b a = Lt.
Proof. rewrite (lex_antisym a b). destruct (lex a b); cbn; split; congruence. Qed.

(** Bytes as sort keys. *)
Definition bkey (b : bytes) : list N := map b2n b.
Lemma bkey_inj a b : bkey a = bkey b -> a = b.
Proof.
  revert b; induction a as [|x a IH]; intros [|y b]; cbn; try discriminate; auto.
  intros [= H1 H2]. apply b2n_inj in H1. apply IH in H2. congruence.
Qed.

(** ** Miscellaneous list facts *)

Lemma app_inv_len {A} (a b c d : list A) :
  length a = length c -> a ++ b = c ++ d -> a = c /\ b = d.
Proof.
  revert c; induction a as [|x a IH]; intros [|y c] H E; cbn in *; try discriminate; auto.
  injection E as -> E. destruct (IH c) as [-> ->]; auto; congruence.
Qed.

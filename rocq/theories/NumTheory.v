(** Number theory for the field of secp256k1: Fermat's theorem, the test of Pocklington, and the
    primality of 2^256 - 2^32 - 977. *)
From Coq Require Import ZArith Znumtheory Zpow_facts List Permutation Lia Bool.
Import ListNotations.
Local Open Scope Z_scope.

(** ** Fermat's theorem *)

Fixpoint zprod (l : list Z) : Z := match l with [] => 1 | x :: r => x * zprod r end.
Lemma zprod_perm l l' : Permutation l l' -> zprod l = zprod l'.
Proof. induction 1; cbn; lia. Qed.

Definition upto (n : nat) : list Z := map Z.of_nat (seq 1 n).
Lemma upto_in n x : In x (upto n) <-> 1 <= x <= Z.of_nat n.
Proof.
  unfold upto. rewrite in_map_iff. split.
  - intros (k & <- & H%in_seq). lia.
  - intros H. exists (Z.to_nat x). split; [lia|]. apply in_seq. lia.
Qed.
Lemma upto_nodup n : NoDup (upto n).
Proof. unfold upto. apply FinFun.Injective_map_NoDup; [intros a b; lia|apply seq_NoDup]. Qed.

Lemma prime_mult_mod p a b : prime p -> (a * b) mod p = 0 -> a mod p = 0 \/ b mod p = 0.
Proof.
  intros Hp H. assert (p > 0) by (destruct Hp; lia). apply Zmod_divide in H; [|lia].
  apply prime_mult in H as [H|H]; auto; [left|right]; apply Zdivide_mod; auto.
Qed.

Lemma prime_pos p : prime p -> 1 < p.
Proof. now destruct 1. Qed.

Lemma zprod_scale a l : zprod (map (fun x => a * x) l) = a ^ Z.of_nat (length l) * zprod l.
Proof.
  induction l as [|x l IH]; cbn [map zprod length]; [reflexivity|].
  rewrite IH, Nat2Z.inj_succ, Z.pow_succ_r by lia. ring.
Qed.
Lemma zprod_mod p l : p <> 0 -> zprod (map (fun x => x mod p) l) mod p = zprod l mod p.
Proof.
  intros Hp. induction l as [|x l IH]; cbn [map zprod]; [reflexivity|].
  rewrite Z.mul_mod, IH, Z.mod_mod, <- Z.mul_mod by exact Hp. reflexivity.
Qed.
Lemma zprod_unit p l : prime p -> Forall (fun x => x mod p <> 0) l -> zprod l mod p <> 0.
Proof.
  intros Hp. pose proof (prime_pos p Hp). induction 1 as [|x l H1 _ IH]; cbn [zprod].
  - rewrite Z.mod_1_l; lia.
  - intros E. apply (prime_mult_mod p) in E as [E|E]; auto.
Qed.

Lemma cancel_mod p a b c : prime p -> a mod p <> 0 -> (a * b) mod p = (a * c) mod p -> b mod p = c mod p.
Proof.
  intros Hp Ha E. pose proof (prime_pos p Hp).
  assert (D : (a * (b - c)) mod p = 0).
  { rewrite Z.mul_sub_distr_l, Zminus_mod, E, Z.sub_diag. apply Z.mod_0_l. lia. }
  apply (prime_mult_mod p) in D as [D|D]; auto; [contradiction|].
  rewrite Zminus_mod in D. pose proof (Z.mod_pos_bound b p ltac:(lia)). pose proof (Z.mod_pos_bound c p ltac:(lia)).
  apply Zmod_divide in D as [k Hk]; [|lia]. assert (k = 0) by nia. lia.
Qed.

Theorem fermat p a : prime p -> a mod p <> 0 -> a ^ (p - 1) mod p = 1.
Proof.
  intros Hp Ha. pose proof (prime_pos p Hp) as H1. set (n := Z.to_nat (p - 1)).
  assert (P : Permutation (map (fun x => (a * x) mod p) (upto n)) (upto n)).
  { apply NoDup_Permutation_bis.
    - assert (N : forall l, NoDup l -> Forall (fun x => 1 <= x < p) l -> NoDup (map (fun x => (a * x) mod p) l)).
      { induction 1 as [|x l Hx _ IH]; cbn; intros F; [constructor|]. apply Forall_cons_iff in F as [F1 F2]. constructor; [|auto].
        intros (y & E & Hy)%in_map_iff. apply Hx. apply (cancel_mod p a y x Hp Ha) in E.
        rewrite Forall_forall in F2. specialize (F2 y Hy). rewrite !Z.mod_small in E by lia. now subst. }
      apply N; [apply upto_nodup|]. apply Forall_forall. intros x Hx%upto_in. lia.
    - rewrite map_length. lia.
    - intros y (x & <- & Hx%upto_in)%in_map_iff. apply upto_in.
      pose proof (Z.mod_pos_bound (a * x) p ltac:(lia)).
      assert ((a * x) mod p <> 0); [|lia]. intros E. apply (prime_mult_mod p) in E as [E|E]; auto.
      rewrite Z.mod_small in E; lia. }
  apply zprod_perm in P.
  assert (E : (zprod (upto n) * a ^ (p - 1)) mod p = (zprod (upto n) * 1) mod p).
  { rewrite Z.mul_1_r, <- P at 1.
    replace (map (fun x => (a * x) mod p) (upto n)) with (map (fun x => x mod p) (map (fun x => a * x) (upto n))) in P |- * by apply map_map.
    rewrite Z.mul_comm.
    assert (L : Z.of_nat (length (upto n)) = p - 1) by (unfold upto; rewrite map_length, seq_length; lia).
    pose proof (zprod_scale a (upto n)) as Q. rewrite L in Q. rewrite P, <- Q.
    rewrite <- (zprod_mod p (map (fun x => a * x) (upto n))) by lia. now rewrite P. }
  apply (cancel_mod p) in E; auto.
  - rewrite E. apply Z.mod_1_l. lia.
  - apply zprod_unit; auto. apply Forall_forall. intros x Hx%upto_in. rewrite Z.mod_small; lia.
Qed.

(** ** Prime divisors *)

Lemma prime_divisor n : 1 < n -> ~ prime n -> exists d, prime d /\ (d | n) /\ d * d <= n.
Proof.
  intros Hn. assert (H : forall m, 0 <= m -> 1 < m -> m <= n -> exists d, prime d /\ (d | m) /\ d <= m).
  { intros m Hm. pattern m. apply Zlt_0_ind; [|exact Hm]. clear m Hm. intros m IH Hm H1 H2.
    destruct (prime_dec m) as [P|P]; [exists m; split; [exact P|split; [apply Z.divide_refl|lia]]|].
    apply not_prime_divide in P as (k & Hk & D); auto.
    destruct (IH k ltac:(lia) ltac:(lia) ltac:(lia)) as (d & Pd & Dd & Ld).
    exists d. split; [exact Pd|split; [now apply Z.divide_trans with k|lia]]. }
  intros P. apply not_prime_divide in P as (k & Hk & [j Hj]); auto.
  assert (Hj0 : 0 < j) by nia. assert (Hj1 : 1 < j) by (assert (j <> 1) by (intros ->; lia); lia). assert (Hj2 : j < n) by nia.
  destruct (Z_le_dec k j) as [C|C].
  - destruct (H k ltac:(lia) ltac:(lia) ltac:(lia)) as (d & Pd & Dd & Ld). exists d. pose proof (prime_pos d Pd). split; [exact Pd|split; [|rewrite Hj; apply Z.mul_le_mono_nonneg; lia]].
    apply Z.divide_trans with k; auto. now exists j.
  - destruct (H j ltac:(lia) ltac:(lia) ltac:(lia)) as (d & Pd & Dd & Ld). exists d. pose proof (prime_pos d Pd). split; [exact Pd|split; [|rewrite Hj; apply Z.mul_le_mono_nonneg; lia]].
    apply Z.divide_trans with j; auto. exists k. lia.
Qed.

(** ** Pocklington *)

Lemma pow_mod_1 b p e : 1 < p -> 0 <= e -> b mod p = 1 -> b ^ e mod p = 1.
Proof.
  intros Hp He H. rewrite Zpower_mod, H by lia. rewrite Z.pow_1_l by lia. apply Z.mod_1_l. lia.
Qed.

Lemma order_divides d q b : prime d -> prime q -> b mod d <> 0 -> b ^ q mod d = 1 -> b mod d <> 1 -> (q | d - 1).
Proof.
  intros Hd Hq H0 Hb H1. pose proof (prime_pos d Hd). pose proof (prime_pos q Hq).
  destruct (Zdivide_dec q (d - 1)) as [D|D]; auto. exfalso. apply H1.
  assert (R : rel_prime q (d - 1)) by now apply prime_rel_prime.
  apply rel_prime_bezout in R as [u v E].
  (* make both coefficients non-negative *)
  set (k := Z.abs u + Z.abs v).
  set (u' := u + k * (d - 1)). set (v' := k * q - v).
  assert (E' : u' * q = 1 + v' * (d - 1)) by (unfold u', v'; lia).
  assert (Hk : 0 <= k) by (unfold k; lia).
  assert (Hu : 0 <= u') by (unfold u'; assert (k <= k * (d - 1)) by (rewrite <- (Z.mul_1_r k) at 1; apply Z.mul_le_mono_nonneg_l; lia); lia).
  assert (Hv : 0 <= v') by (unfold v'; assert (k <= k * q) by (rewrite <- (Z.mul_1_r k) at 1; apply Z.mul_le_mono_nonneg_l; lia); lia).
  assert (A : b ^ (u' * q) mod d = 1).
  { rewrite (Z.mul_comm u' q), Z.pow_mul_r by lia. apply pow_mod_1; lia. }
  assert (Hvd : 0 <= v' * (d - 1)) by (apply Z.mul_nonneg_nonneg; lia). rewrite E', Z.pow_add_r, Z.pow_1_r in A by (exact Hvd || lia).
  rewrite Z.mul_mod in A by lia. rewrite (Z.mul_comm v' (d - 1)), Z.pow_mul_r in A by lia.
  rewrite (pow_mod_1 (b ^ (d - 1)) d v') in A by (try lia; now apply fermat).
  rewrite Z.mul_1_r, Z.mod_mod in A by lia. exact A.
Qed.

Lemma coprime_mod n d a : (d | n) -> 1 < d -> 0 < n -> forall e, 0 < e -> a ^ e mod n = 1 -> a mod d <> 0.
Proof.
  intros D Hd Hn e He H E.
  assert (Z1 : a ^ e mod d = 1).
  { destruct D as [k ->]. rewrite (Z.mul_comm k d) in *. rewrite <- (Z.mod_1_l d Hd), <- H.
    rewrite Z.rem_mul_r by nia. rewrite Z.add_mod, (Z.mul_comm d), Z.mod_mul, Z.add_0_r, !Z.mod_mod by lia. reflexivity. }
  rewrite Zpower_mod, E, Z.pow_0_l in Z1 by lia. rewrite Z.mod_0_l in Z1; lia.
Qed.

Lemma mod_divisor n d x y : (d | n) -> 0 < d -> 0 < n -> x mod n = y mod n -> x mod d = y mod d.
Proof.
  intros [k ->] Hd Hn E. rewrite (Z.mul_comm k d) in *.
  assert (A : forall z, z mod d = (z mod (d * k)) mod d).
  { intros z. rewrite Z.rem_mul_r by nia. rewrite Z.add_mod, (Z.mul_comm d), Z.mod_mul, Z.add_0_r, !Z.mod_mod by lia. reflexivity. }
  now rewrite (A x), (A y), E.
Qed.

Definition witness (n q a : Z) : Prop :=
  prime q /\ (q | n - 1) /\ a ^ (n - 1) mod n = 1 /\ Z.gcd (a ^ ((n - 1) / q) - 1) n = 1.

Lemma witness_divides n q a d : 1 < n -> witness n q a -> prime d -> (d | n) -> (q | d - 1).
Proof.
  intros Hn (Pq & [k Hk] & H1 & H2) Pd D. pose proof (prime_pos q Pq). pose proof (prime_pos d Pd).
  rewrite Hk, Z.div_mul in H2 by lia. assert (0 < k) by nia.
  apply (order_divides d q (a ^ k)); auto.
  - intros E. pose proof (coprime_mod n d a D ltac:(lia) ltac:(lia) (n - 1) ltac:(lia) H1) as U.
    apply U. assert (V : forall e, 0 <= e -> a ^ e mod d = 0 -> a mod d = 0).
    { intros e He. pattern e. apply natlike_ind; [| |exact He].
      - rewrite Z.pow_0_r, Z.mod_1_l; lia.
      - intros x Hx IH. rewrite Z.pow_succ_r by exact Hx. intros [Z1|Z1]%(prime_mult_mod d); auto. }
    apply (V k); lia.
  - rewrite <- Z.pow_mul_r by lia. rewrite <- Hk. transitivity (1 mod d); [|apply Z.mod_1_l; lia].
    apply (mod_divisor n d _ _ D); try lia. rewrite H1. symmetry. apply Z.mod_1_l. lia.
  - intros E. assert (G : (d | Z.gcd (a ^ k - 1) n)).
    { apply Z.gcd_greatest; auto. apply Zmod_divide; [lia|]. rewrite Zminus_mod, E, (Z.mod_1_l d) by lia. apply Z.mod_0_l. lia. }
    rewrite H2 in G. apply Z.divide_1_r_nonneg in G; lia.
Qed.

(** One large prime factor of [n - 1] is enough. *)
Theorem pocklington1 n q a : 1 < n -> witness n q a -> n < (q + 1) * (q + 1) -> prime n.
Proof.
  intros Hn W Hq. destruct (prime_dec n) as [P|P]; auto. exfalso.
  destruct (prime_divisor n Hn P) as (d & Pd & D & Hd). pose proof (witness_divides n q a d Hn W Pd D) as Hk.
  pose proof (prime_pos d Pd). destruct W as (Pq & _). pose proof (prime_pos q Pq). apply Z.divide_pos_le in Hk; [|lia].
  assert ((q + 1) * (q + 1) <= d * d) by (apply Z.mul_le_mono_nonneg; lia). lia.
Qed.

Lemma coprime_mult a b m : rel_prime a b -> (a | m) -> (b | m) -> (a * b | m).
Proof.
  intros R [k ->] H. rewrite Z.mul_comm in H. apply Gauss in H; [|now apply rel_prime_sym].
  destruct H as [j ->]. exists j. ring.
Qed.

(** Three different ones. *)
Theorem pocklington3 n q1 q2 q3 a1 a2 a3 : 1 < n -> witness n q1 a1 -> witness n q2 a2 -> witness n q3 a3 ->
  q1 <> q2 -> q1 <> q3 -> q2 <> q3 -> n < q1 * q2 * q3 * (q1 * q2 * q3) -> prime n.
Proof.
  intros Hn W1 W2 W3 N12 N13 N23 Hq. destruct (prime_dec n) as [P|P]; auto. exfalso.
  destruct (prime_divisor n Hn P) as (d & Pd & D & Hd).
  pose proof (witness_divides n q1 a1 d Hn W1 Pd D) as D1. pose proof (witness_divides n q2 a2 d Hn W2 Pd D) as D2.
  pose proof (witness_divides n q3 a3 d Hn W3 Pd D) as D3. destruct W1 as (P1 & _), W2 as (P2 & _), W3 as (P3 & _).
  assert (R : forall p q, prime p -> prime q -> p <> q -> rel_prime p q).
  { intros p q Hp Hq' N. apply prime_rel_prime; auto. intros E. apply N. now apply prime_div_prime. }
  assert (D12 : (q1 * q2 | d - 1)) by (apply coprime_mult; auto).
  assert (D123 : (q1 * q2 * q3 | d - 1)).
  { apply coprime_mult; auto. apply rel_prime_sym, rel_prime_mult; apply R; auto. }
  pose proof (prime_pos d Pd). pose proof (prime_pos q1 P1). pose proof (prime_pos q2 P2). pose proof (prime_pos q3 P3).
  apply Z.divide_pos_le in D123; [|lia]. assert (0 < q1 * q2) by (apply Z.mul_pos_pos; lia). assert (0 < q1 * q2 * q3) by (apply Z.mul_pos_pos; lia).
  set (f := q1 * q2 * q3) in *. assert (f * f <= d * d) by (apply Z.mul_le_mono_nonneg; lia). lia.
Qed.

(** ** Checking witnesses and small primes by computation *)

Fixpoint zpow_mod (n a : Z) (e : positive) : Z :=
  match e with
  | xH => a mod n
  | xO e' => let b := zpow_mod n a e' in b * b mod n
  | xI e' => let b := zpow_mod n a e' in a * (b * b mod n) mod n
  end.
Lemma zpow_mod_ok n a e : n <> 0 -> zpow_mod n a e = a ^ Z.pos e mod n.
Proof.
  intros Hn. induction e as [e IH|e IH|]; cbn [zpow_mod]; cbv zeta.
  - rewrite Pos2Z.inj_xI, Z.pow_add_r, Z.pow_1_r, Z.mul_comm, (Z.mul_comm 2), Z.pow_mul_r, Z.pow_2_r, IH by lia.
    rewrite <- Z.mul_mod by exact Hn. rewrite Z.mul_mod_idemp_l by exact Hn. reflexivity.
  - rewrite Pos2Z.inj_xO, (Z.mul_comm 2), Z.pow_mul_r, Z.pow_2_r, IH by lia. now rewrite <- Z.mul_mod.
  - now rewrite Z.pow_1_r.
Qed.

(** [c] is the cofactor of [q] in [n - 1], [i] the inverse of [a ^ c - 1]. *)
Lemma witness_check n q c a i : prime q -> 1 < n -> n - 1 = c * q -> 0 < c ->
  (let b := zpow_mod n a (Z.to_pos c) in (zpow_mod n b (Z.to_pos q) =? 1) && (((b - 1) * i) mod n =? 1)) = true -> witness n q a.
Proof.
  intros Pq Hn E Hc H. cbv zeta in H. apply andb_prop in H as [H1 H2]. apply Z.eqb_eq in H1. apply Z.eqb_eq in H2.
  pose proof (prime_pos q Pq). rewrite zpow_mod_ok in H1, H2 by lia. rewrite zpow_mod_ok in H1 by lia.
  rewrite !Z2Pos.id in * by lia. split; [exact Pq|]. split; [now exists c|]. split.
  - rewrite E, Z.pow_mul_r by lia. now rewrite <- Zpower_mod in H1 by lia.
  - rewrite E, Z.div_mul by lia. apply Zgcd_1_rel_prime. apply bezout_rel_prime.
    set (x := a ^ c) in *. rewrite Z.mul_mod, Zminus_mod_idemp_l, <- Z.mul_mod in H2 by lia.
    apply (Bezout_intro _ _ _ i (- (((x - 1) * i) / n))).
    pose proof (Z.div_mod ((x - 1) * i) n ltac:(lia)). lia.
Qed.

(** No number among the [k] from [d] on divides [n]. *)
Fixpoint no_divisor (n : Z) (k : nat) (d : Z) : bool :=
  match k with
  | O => true
  | S k' => negb (n mod d =? 0) && no_divisor n k' (d + 1)
  end.
Lemma no_divisor_ok n k : forall d x, no_divisor n k d = true -> d <= x < d + Z.of_nat k -> ~ (x | n).
Proof.
  induction k as [|k IH]; intros d x H Hd; [lia|]. cbn [no_divisor] in H.
  apply andb_prop in H as [H1 H2]. destruct (Z.eq_dec x d) as [->|N]; [|apply (IH (d + 1)); auto; lia].
  intros D. apply Zdivide_mod in D. rewrite D in H1. discriminate.
Qed.
Lemma small_prime n k : 1 < n -> n < (Z.of_nat k + 2) * (Z.of_nat k + 2) -> no_divisor n k 2 = true -> prime n.
Proof.
  intros Hn Hk H. destruct (prime_dec n) as [P|P]; auto. exfalso.
  destruct (prime_divisor n Hn P) as (d & Pd & D & Hd). pose proof (prime_pos d Pd).
  apply (no_divisor_ok n k 2 d H); auto. nia.
Qed.

(** ** The field of secp256k1 *)

Lemma prime_96557 : prime 96557.
Proof. apply (small_prime 96557 310); [reflexivity|reflexivity|vm_cast_no_check (eq_refl true)]. Qed.
Lemma prime_7240687 : prime 7240687.
Proof. apply (small_prime 7240687 2690); [reflexivity|vm_compute; reflexivity|vm_cast_no_check (eq_refl true)]. Qed.
Lemma prime_107590001 : prime 107590001.
Proof. apply (small_prime 107590001 (10 * 1037 + 5)); [reflexivity|vm_compute; reflexivity|vm_cast_no_check (eq_refl true)]. Qed.

(** A prime divisor of [q237 - 1]. *)
Definition r128 : Z := 255515944373312847190720520512484175977.
Lemma prime_r128 : prime r128.
Proof.
  apply (pocklington3 r128 107590001 7240687 96557 2 2 2).
  - reflexivity.
  - apply (witness_check _ _ 2374904191824599455024826335976 _ 235081362755335172132203715226758066727);
      [exact prime_107590001|reflexivity|reflexivity|reflexivity|vm_cast_no_check (eq_refl true)].
  - apply (witness_check _ _ 35288908963101546467996824129048 _ 175544394104025381149509263364095140941);
      [exact prime_7240687|reflexivity|reflexivity|reflexivity|vm_cast_no_check (eq_refl true)].
  - apply (witness_check _ _ 2646270538369179315748423423599368 _ 52333299885033245219942804006191421971);
      [exact prime_96557|reflexivity|reflexivity|reflexivity|vm_cast_no_check (eq_refl true)].
  - discriminate.
  - discriminate.
  - discriminate.
  - reflexivity.
Qed.

(** A prime divisor of [p256 - 1]. *)
Definition q237 : Z := 205115282021455665897114700593932402728804164701536103180137503955397371.
Lemma prime_q237 : prime q237.
Proof.
  apply (pocklington1 q237 r128 2); [reflexivity| |reflexivity].
  apply (witness_check _ _ 802749442992798076634733441528810 _ 81475874003799270243122483189086420723726815346591292526890606927317739);
    [exact prime_r128|reflexivity|reflexivity|reflexivity|vm_cast_no_check (eq_refl true)].
Qed.

(** SEC 2, section 2.4.1. *)
Definition p256 : Z := 2 ^ 256 - 2 ^ 32 - 977.
Theorem prime_p256 : prime p256.
Proof.
  apply (pocklington1 p256 q237 2); [reflexivity| |reflexivity].
  apply (witness_check _ _ 564522 _ 38738227534097492269493948901333532538630784921480042032654553727346127695815);
    [exact prime_q237|reflexivity|reflexivity|reflexivity|vm_cast_no_check (eq_refl true)].
Qed.

(** -7 is no cube: no point of the curve has y = 0. *)
Lemma no_cube : zpow_mod p256 (-7) (Z.to_pos ((p256 - 1) / 3)) =? 1 = false.
Proof. vm_cast_no_check (eq_refl false). Qed.
Lemma no_root x : (x * x * x + 7) mod p256 <> 0.
Proof.
  intros E. pose proof no_cube as N. apply Z.eqb_neq in N. apply N. clear N. rewrite zpow_mod_ok by discriminate.
  pose proof prime_p256 as P. set (p := p256) in *.
  assert (Hp : 7 < p) by reflexivity. assert (H3 : p - 1 = 3 * ((p - 1) / 3)) by reflexivity.
  clearbody p. set (k := (p - 1) / 3) in *. clearbody k. rewrite Z2Pos.id by lia.
  assert (C : (-7) mod p = x ^ 3 mod p).
  { replace (-7) with (x ^ 3 - (x * x * x + 7)) by ring. rewrite Zminus_mod, E, Z.sub_0_r, Z.mod_mod; lia. }
  rewrite Zpower_mod, C, <- Zpower_mod, <- Z.pow_mul_r, <- H3 by lia. apply fermat; auto.
  intros Z1. change 3 with (Z.succ 2) in C. rewrite Z.pow_succ_r, Z.mul_mod, Z1, Z.mul_0_l, Z.mod_0_l in C by lia.
  apply Zmod_divide in C; [|lia]. apply Z.divide_opp_r in C. apply Z.divide_pos_le in C; lia.
Qed.

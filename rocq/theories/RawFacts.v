(** Proofs about raw pairs and the map decoding loop. *)
From Verif Require Import Base OMap Consensus ConsensusFacts Raw.
Local Open Scope N_scope.

(** ** Sort keys *)

Lemma sk_key_inj a b : sk_key a = sk_key b -> a = b.
Proof.
  destruct a as [ta da], b as [tb db]. unfold sk_key. cbn. intros [= H1 H2].
  apply b2n_inj in H1. apply bkey_inj in H2. congruence.
Qed.

Lemma sk_propkey_inj a b : sk_propkey a = sk_propkey b -> a = b.
Proof.
  destruct a as [pa sa ka], b as [pb sb kb]. unfold sk_propkey. cbn [pk_prefix pk_subtype pk_key].
  intros H.
  assert (G : pa = pb /\ b2n sa :: bkey ka = b2n sb :: bkey kb).
  { revert pb H. induction pa as [|x pa IH]; intros [|y pb] H; cbn in H; try (injection H; intros; lia).
    - injection H as H1 H2. split; congruence.
    - injection H as H1 H2. apply IH in H2 as [-> H2]. split; auto. f_equal. apply b2n_inj. lia. }
  destruct G as [-> [= H1 H2]]. apply b2n_inj in H1. apply bkey_inj in H2. congruence.
Qed.

(** ** Keys and pairs *)

Lemma dec_key_rt : rt wf_key ser_key dec_key.
Proof.
  intros [t d] rest H. unfold wf_key in H. cbn in H. unfold ser_key, dec_key. cbn [k_type k_data].
  unfold MAX_VEC_SIZE in *.
  rewrite <- app_assoc, dec_varint_rt by (unfold wf_u64, U64; lia). cbn [map_err bind].
  destruct (blen d + 1 =? 0) eqn:E1; [lia|].
  replace (blen d + 1 - 1) with (blen d) by lia. cbv zeta.
  destruct (4000000 <? blen d) eqn:E2; [lia|].
  rewrite <- app_comm_cons. rewrite c_take_rt by reflexivity. reflexivity.
Qed.

Lemma dec_key_canon : canon wf_key ser_key dec_key.
Proof.
  intros bs k rest H. unfold dec_key in H. binds H. apply map_err_ok in Hx.
  apply dec_varint_canon in Hx as [-> Hn].
  destruct (n =? 0) eqn:E1; [discriminate|]. cbv zeta in H.
  destruct (MAX_VEC_SIZE <? n - 1) eqn:E2; [discriminate|].
  destruct b as [|t r2]; [discriminate|]. binds H. inv H.
  apply map_err_ok in Hx. apply c_take_canon in Hx as [-> Hl].
  unfold ser_key, wf_key. cbn [k_type k_data]. rewrite Hl.
  replace (n - 1 + 1) with n by lia. rewrite <- app_assoc, <- app_comm_cons.
  split; auto. lia.
Qed.

Lemma dec_key_nopanic : nopanic dec_key.
Proof.
  intros bs. unfold dec_key. pose proof (dec_varint_nopanic bs).
  destruct (dec_varint bs) as [[n r]| |]; cbn [map_err bind]; try congruence.
  destruct (n =? 0); [discriminate|]. cbv zeta. destruct (MAX_VEC_SIZE <? n - 1); [discriminate|].
  destruct r as [|t r]; [discriminate|].
  pose proof (c_take_nopanic (n - 1) r). destruct (c_take (n - 1) r) as [[]| |]; cbn; congruence.
Qed.

Lemma enc_varint_len n : blen (enc_varint n) =
  if n <? 253 then 1 else if n <? 65536 then 3 else if n <? 4294967296 then 5 else 9.
Proof.
  unfold enc_varint. destruct (n <? 253); [reflexivity|]. destruct (n <? 65536); [reflexivity|].
  destruct (n <? 4294967296); reflexivity.
Qed.

Lemma value_limit n : (MAX_VEC_SIZE <? blen (enc_varint n) + n) = false <-> n <= MAX_VALUE.
Proof.
  rewrite enc_varint_len. unfold MAX_VEC_SIZE, MAX_VALUE.
  destruct (n <? 253) eqn:E1; [lia|]. destruct (n <? 65536) eqn:E2; [lia|].
  destruct (n <? 4294967296) eqn:E3; lia.
Qed.

Lemma dec_value_rt : rt wf_value enc_bytes dec_value.
Proof.
  intros v rest H. unfold dec_value, enc_bytes. unfold wf_value in H.
  rewrite <- app_assoc, dec_varint_rt by (unfold wf_u64, U64, MAX_VALUE in *; lia). cbn [bind].
  apply value_limit in H. rewrite H. now apply c_take_rt.
Qed.

Lemma dec_value_bytes bs : dec_value bs = Err CIo \/ dec_value bs = dec_bytes bs.
Proof.
  unfold dec_value, dec_bytes. destruct (dec_varint bs) as [[n r]| |]; cbn [bind]; auto.
  destruct (_ <? _); auto.
Qed.

Lemma dec_value_canon : canon wf_value enc_bytes dec_value.
Proof.
  intros bs v rest H. unfold dec_value in H. binds H.
  destruct (_ <? _) eqn:E in H; [discriminate|]. apply value_limit in E.
  apply dec_varint_canon in Hx as [-> _]. apply c_take_canon in H as [-> H].
  unfold enc_bytes, wf_value. rewrite H, <- app_assoc. auto.
Qed.

Lemma dec_value_nopanic : nopanic dec_value.
Proof.
  intros bs. destruct (dec_value_bytes bs) as [->| ->]; [discriminate|apply dec_bytes_nopanic].
Qed.

Lemma dec_pair_rt : rt wf_pair ser_pair dec_pair.
Proof.
  intros [k v] rest [Hk Hv]. cbn in Hk, Hv. unfold ser_pair, dec_pair. cbn [p_key p_value].
  rewrite <- app_assoc, dec_key_rt by assumption. cbn [bind].
  rewrite dec_value_rt by assumption. reflexivity.
Qed.

Lemma dec_pair_canon : canon wf_pair ser_pair dec_pair.
Proof.
  intros bs p rest H. unfold dec_pair in H. binds H. inv H. apply map_err_ok in Hx0.
  apply dec_key_canon in Hx as [-> Hk]. apply dec_value_canon in Hx0 as [-> Hv].
  unfold ser_pair. cbn [p_key p_value]. rewrite <- app_assoc. split; auto. split; auto.
Qed.

Lemma dec_pair_nopanic : nopanic dec_pair.
Proof.
  intros bs. unfold dec_pair. pose proof (dec_key_nopanic bs).
  destruct (dec_key bs) as [[k r]| |]; cbn [bind]; try congruence.
  pose proof (dec_value_nopanic r). destruct (dec_value r) as [[v r']| |]; cbn; congruence.
Qed.

(** The map terminator: exactly one zero byte. *)
Lemma dec_pair_end r : dec_pair (x00 :: r) = Err SNoMorePairs.
Proof. reflexivity. Qed.

Lemma dec_pair_no_more bs : dec_pair bs = Err SNoMorePairs -> exists r, bs = x00 :: r.
Proof.
  unfold dec_pair, dec_key. destruct (dec_varint bs) as [[n r]|e|] eqn:E; cbn [map_err bind]; try discriminate.
  destruct (n =? 0) eqn:E0.
  - intros _. apply dec_varint_canon in E as [-> _]. apply N.eqb_eq in E0. subst n.
    exists r. reflexivity.
  - cbv zeta. destruct (MAX_VEC_SIZE <? n - 1); [discriminate|].
    destruct r as [|t r]; [discriminate|].
    destruct (c_take (n - 1) r) as [[d r']| |]; cbn; try discriminate.
    destruct (dec_value r') as [[v r'']| |]; cbn; discriminate.
Qed.

Lemma ser_key_head k : wf_key k -> exists b r, ser_key k = b :: r /\ b <> x00.
Proof.
  intros H. unfold ser_key. assert (Hn : blen (k_data k) + 1 <> 0) by lia.
  revert Hn. generalize (blen (k_data k) + 1). intros n Hn.
  unfold enc_varint. destruct (n <? 253) eqn:E1.
  { cbn. eexists _, _. split; [reflexivity|]. intros Hb.
    assert (b2n (n2b n) = 0) by (rewrite Hb; reflexivity). rewrite b2n_n2b in H0; lia. }
  destruct (n <? 65536); [cbn; eexists _, _; split; [reflexivity | discriminate]|].
  destruct (n <? 4294967296); cbn; eexists _, _; (split; [reflexivity | discriminate]).
Qed.

Lemma ser_pair_head p : wf_pair p -> exists b r, ser_pair p = b :: r /\ b <> x00.
Proof.
  intros [Hk _]. destruct (ser_key_head _ Hk) as (b & r & E & Hb).
  unfold ser_pair. rewrite E. exists b, (r ++ enc_bytes (p_value p)). auto.
Qed.

Lemma ser_pair_nonempty p : ser_pair p <> [].
Proof.
  unfold ser_pair, ser_key. pose proof (enc_varint_nonempty (blen (k_data (p_key p)) + 1)).
  destruct (enc_varint _); [congruence | discriminate].
Qed.

(** ** Proprietary keys *)

Lemma dec_propkey_de k : wf_propkey k -> c_deserialize dec_propkey (enc_propkey k) = Ok k.
Proof.
  destruct k as [p s d]. intros [H1 H2]. cbn in H2. unfold c_deserialize, dec_propkey, enc_propkey in *.
  cbn [pk_prefix pk_subtype pk_key] in *. rewrite blen_app, blen_cons in H1.
  unfold enc_bytes in H1. rewrite blen_app in H1. unfold MAX_VEC_SIZE in H1.
  rewrite dec_bytes_rt by (unfold wf_vec, U64; lia). cbn [bind].
  replace (N.min PROP_KEY_LIMIT (blen d)) with (blen d) by lia.
  rewrite <- (app_nil_r d) at 2. rewrite c_take_rt by reflexivity. reflexivity.
Qed.

Lemma dec_propkey_canon bs k :
  c_deserialize dec_propkey bs = Ok k -> bs = enc_propkey k /\ blen (pk_key k) <= PROP_KEY_LIMIT.
Proof.
  unfold c_deserialize, dec_propkey. intros H. binds H. destruct b; [|discriminate]. inv H.
  binds Hx. destruct b0 as [|t r2]; [discriminate|]. cbv zeta in Hx. binds Hx. inv Hx.
  apply dec_bytes_canon in Hx0 as [-> _]. apply c_take_canon in Hx1 as [-> Hl].
  rewrite app_nil_r in *. unfold enc_propkey. cbn. split; auto. lia.
Qed.

Lemma propkey_roundtrip k : wf_propkey k -> propkey_try_from (propkey_to_key k) = Ok k.
Proof.
  intros H. unfold propkey_try_from, propkey_to_key. cbn [k_type k_data].
  rewrite beq_refl. cbn [negb]. rewrite dec_propkey_de by assumption. reflexivity.
Qed.

Lemma propkey_try_from_inv k pk :
  propkey_try_from k = Ok pk -> k = propkey_to_key pk /\ blen (pk_key pk) <= PROP_KEY_LIMIT.
Proof.
  unfold propkey_try_from. destruct (beq (k_type k) xfc) eqn:E; cbn [negb]; [|discriminate].
  intros H. apply map_err_ok in H. apply dec_propkey_canon in H as [H1 H2].
  apply beq_eq in E. destruct k as [t d]. cbn in *. subst. auto.
Qed.

Lemma propkey_try_from_nopanic k : propkey_try_from k <> Panic.
Proof.
  unfold propkey_try_from. destruct (negb _); [discriminate|].
  unfold c_deserialize, dec_propkey. pose proof (dec_bytes_nopanic (k_data k)).
  destruct (dec_bytes (k_data k)) as [[p r]| |]; cbn; try congruence.
  destruct r as [|t r]; cbn; [discriminate|].
  pose proof (c_take_nopanic (N.min PROP_KEY_LIMIT (blen r)) r).
  destruct (c_take _ r) as [[d [|]]| |]; cbn; congruence.
Qed.

(** ** The decoding loop *)

Section Loop.
Context {S E : Type} (ins : pair -> S -> res E S) (dpe : serr -> E).

(** Decoding a serialized list of pairs is inserting them one after the other. *)
Lemma dec_map_pairs l : forall fuel acc rest,
  Forall wf_pair l -> (length l < fuel)%nat ->
  dec_map ins dpe fuel acc (ser_pairs l ++ rest)
  = (acc' <- ins_all ins l acc ;; Ok (acc', rest)).
Proof.
  induction l as [|p l IH]; intros fuel acc rest Hwf Hf.
  - destruct fuel; [lia|]. reflexivity.
  - destruct fuel as [|f]; [cbn in Hf; lia|]. inv Hwf.
    cbn [dec_map]. unfold ser_pairs. rewrite enc_all_cons, <- !app_assoc.
    rewrite dec_pair_rt by assumption.
    cbn [ins_all]. destruct (ins p acc) as [acc'| |]; cbn [bind]; auto.
    specialize (IH f acc' rest H2). unfold ser_pairs in IH. rewrite <- app_assoc in IH.
    apply IH. cbn in Hf. lia.
Qed.

(** Every accepted byte string is a list of pairs, a terminator and a rest. *)
Lemma dec_map_inv fuel : forall acc bs acc' rest,
  dec_map ins dpe fuel acc bs = Ok (acc', rest) ->
  exists l, bs = ser_pairs l ++ rest /\ Forall wf_pair l /\ ins_all ins l acc = Ok acc'.
Proof.
  induction fuel as [|f IH]; intros acc bs acc' rest H; cbn [dec_map] in H; [discriminate|].
  destruct (dec_pair bs) as [[p r]|e|] eqn:Ep.
  - binds H. apply dec_pair_canon in Ep as [-> Hwf].
    apply IH in H as (l & -> & Hl & Hi).
    exists (p :: l). repeat split; auto.
    + unfold ser_pairs. now rewrite enc_all_cons, <- !app_assoc.
    + cbn. now rewrite Hx.
  - destruct e; try discriminate. apply dec_pair_no_more in Ep as [r ->].
    inv H. exists []. auto.
  - discriminate.
Qed.

Lemma dec_map_nopanic fuel : forall acc bs,
  (forall p a, ins p a <> Panic) -> dec_map ins dpe fuel acc bs <> Panic.
Proof.
  induction fuel as [|f IH]; intros acc bs Hp; cbn [dec_map]; [discriminate|].
  destruct (dec_pair bs) as [[p r]|e|] eqn:Ep.
  - pose proof (Hp p acc). destruct (ins p acc); cbn; try congruence. now apply IH.
  - destruct e; discriminate.
  - now apply dec_pair_nopanic in Ep.
Qed.

(** More fuel changes nothing: with [S (length bs)] the loop is the Rust loop. *)
Lemma dec_map_fuel f1 : forall f2 acc bs,
  (length bs < f1)%nat -> (length bs < f2)%nat ->
  dec_map ins dpe f1 acc bs = dec_map ins dpe f2 acc bs.
Proof.
  induction f1 as [|f1 IH]; intros f2 acc bs H1 H2; [lia|].
  destruct f2 as [|f2]; [lia|]. cbn [dec_map].
  destruct (dec_pair bs) as [[p r]|e|] eqn:Ep; auto.
  destruct (ins p acc); cbn [bind]; auto.
  apply dec_pair_canon in Ep as [-> Hwf]. rewrite app_length in *.
  pose proof (ser_pair_nonempty p). destruct (ser_pair p); [congruence|].
  cbn in *. apply IH; lia.
Qed.

Lemma ins_all_app l1 l2 acc :
  ins_all ins (l1 ++ l2) acc = (acc' <- ins_all ins l1 acc ;; ins_all ins l2 acc').
Proof.
  revert acc; induction l1 as [|p l IH]; intros acc; cbn; auto.
  destruct (ins p acc); cbn; auto.
Qed.

(** An invariant of the insertion function is an invariant of the loop. *)
Lemma ins_all_inv (P : S -> Prop) l acc acc' :
  (forall p a a', In p l -> P a -> ins p a = Ok a' -> P a') ->
  P acc -> ins_all ins l acc = Ok acc' -> P acc'.
Proof.
  revert acc; induction l as [|p l IH]; intros acc Hp Ha H; cbn in H.
  - now inv H.
  - binds H. eapply IH; [| |exact H]; eauto.
    + intros; eapply Hp; eauto. now right.
    + eapply Hp; eauto. now left.
Qed.

End Loop.

Lemma ser_pairs_length_gt l rest : (length l < Datatypes.S (length (ser_pairs l ++ rest)))%nat.
Proof.
  unfold ser_pairs. rewrite !app_length.
  assert ((length l <= length (enc_all ser_pair l))%nat); [|lia].
  apply enc_all_length_ge. intros. apply ser_pair_nonempty.
Qed.

(** Serialized pair lists are uniquely decodable, whatever follows. *)
Lemma ser_pairs_inj l1 : forall l2 r1 r2,
  Forall wf_pair l1 -> Forall wf_pair l2 ->
  ser_pairs l1 ++ r1 = ser_pairs l2 ++ r2 -> l1 = l2 /\ r1 = r2.
Proof.
  induction l1 as [|p1 l1 IH]; intros [|p2 l2] r1 r2 H1 H2 H.
  - injection H as H. split; congruence.
  - exfalso. inv H2. unfold ser_pairs in H. rewrite enc_all_cons, <- !app_assoc in H. change (enc_all ser_pair []) with (@nil byte) in H. cbn in H.
    destruct (ser_pair_head p2) as (b & r & E & Hb); auto. rewrite E in H.
    cbn in H. congruence.
  - exfalso. inv H1. unfold ser_pairs in H. rewrite enc_all_cons, <- !app_assoc in H. change (enc_all ser_pair []) with (@nil byte) in H. cbn in H.
    destruct (ser_pair_head p1) as (b & r & E & Hb); auto. rewrite E in H.
    cbn in H. congruence.
  - inv H1. inv H2. unfold ser_pairs in H. rewrite !enc_all_cons, <- !app_assoc in H.
    assert (D : dec_pair (ser_pair p1 ++ enc_all ser_pair l1 ++ [x00] ++ r1)
              = dec_pair (ser_pair p2 ++ enc_all ser_pair l2 ++ [x00] ++ r2)) by now rewrite H.
    rewrite !dec_pair_rt in D by assumption. inversion D as [[Dp Dr]]. subst p2.
    destruct (IH l2 r1 r2) as [-> ->]; auto.
    unfold ser_pairs. now rewrite <- !app_assoc.
Qed.

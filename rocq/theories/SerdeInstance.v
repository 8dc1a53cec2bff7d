(** An instance of the external implementations of serde that satisfies every law of
    [SerdeLaws].  It is used by the examples beside the theorems; the real representations
    differ (the types are listed at [SerdeExt], Serde.v, with the lines that use them). *)
From Verif Require Import Base OMap Consensus Ext ExtInstance Raw TapTree TapTreeFacts Serialize SerializeFacts SighashType Serde SpecPsbt SpecSerde SerdeFacts.
Local Open Scope N_scope.

(** A string that is read by a function (stands in for [FromStr], src/v2/map/global.rs:62). *)
Definition t_text {A} (enc : A -> bytes) (dec : bytes -> option A) : codec A := {|
  c_ser := fun _ x => SStr (enc x);
  c_de := fun _ v => match v with SStr s => dec s | _ => None end
|}.
(** A number with a test (src/v2/map/input.rs:59-65). *)
Definition t_num (chk : N -> bool) : codec N := {|
  c_ser := fun _ n => SNum n;
  c_de := fun _ v => match v with SNum n => if chk n then Some n else None | _ => None end
|}.
(** A value that is written as another one (src/v2/map/input.rs:70-74). *)
Definition t_iso {A B} (c : codec B) (to : A -> B) (from : B -> A) (chk : B -> bool) : codec A := {|
  c_ser := fun f x => c_ser c f (to x);
  c_de := fun f v => match c_de c f v with Some b => if chk b then Some (from b) else None | None => None end
|}.
(** Strings with a test (src/v2/map/input.rs:51). *)
Definition t_str (chk : bytes -> bool) : codec bytes := t_text (fun s => s) (fun s => if chk s then Some s else None).
Definition t_len (n : nat) : codec bytes := t_str (fun s => Nat.eqb (length s) n).
Definition all_ok {A} (_ : A) : bool := true.

Lemma t_text_ok {A} (ok : A -> Prop) enc dec :
  (forall x, ok x -> dec (enc x) = Some x) -> (forall s x, dec s = Some x -> ok x) -> faithful ok (t_text enc dec).
Proof.
  intros H1 H2. constructor.
  - intros f x. apply H1.
  - intros f v x E. destruct v; try discriminate. exact (H2 _ _ E).
  - intros f x. discriminate.
  - intros f x _. constructor.
Qed.
Lemma t_text_textual {A} enc (dec : bytes -> option A) : textual (t_text enc dec).
Proof. intros f x _. now exists (enc x). Qed.
Lemma t_str_ok (ok : bytes -> Prop) chk : (forall s, chk s = true <-> ok s) -> faithful ok (t_str chk).
Proof.
  intros H. apply t_text_ok.
  - intros x Hx. apply H in Hx. now rewrite Hx.
  - intros s x E. destruct (chk s) eqn:G; [|discriminate]. injection E as <-. now apply H.
Qed.
Lemma t_len_ok n : faithful (has_len n) (t_len n).
Proof. apply t_str_ok. intros s. apply Nat.eqb_eq. Qed.
Lemma t_num_ok (ok : N -> Prop) chk : (forall s, chk s = true <-> ok s) -> faithful ok (t_num chk).
Proof.
  intros H. constructor.
  - intros f x Hx. apply H in Hx. cbn. now rewrite Hx.
  - intros f v x E. cbn in E. destruct v; try discriminate. destruct (chk n) eqn:G; [|discriminate]. injection E as <-. now apply H.
  - discriminate.
  - constructor.
Qed.
Lemma t_iso_ok {A B} (ok : A -> Prop) (c : codec B) to from chk :
  faithful any c -> (forall x, ok x -> chk (to x) = true /\ from (to x) = x) -> (forall b, chk b = true -> ok (from b)) ->
  faithful ok (t_iso c to from chk).
Proof.
  intros F H1 H2. constructor.
  - intros f x Hx. cbn. rewrite (fa_back _ _ F f (to x) I). destruct (H1 x Hx) as [-> ->]. reflexivity.
  - intros f v x E. cbn in E. destruct (c_de c f v) as [b|]; [|discriminate]. destruct (chk b) eqn:G; [|discriminate].
    injection E as <-. now apply H2.
  - intros f x. apply (fa_some _ _ F).
  - intros f x E. now apply (fa_json _ _ F).
Qed.
Lemma t_pair_ok {A B} (a : codec A) (b : codec B) : faithful any a -> faithful any b -> faithful any (c_pair a b).
Proof.
  intros Fa Fb. constructor.
  - intros f x _. apply (pair_back f any any); [apply (fback _ _ Fa)|apply (fback _ _ Fb)|split; exact I].
  - intros; exact I.
  - discriminate.
  - intros f x E. apply pair_json; [apply (fjson _ _ Fa)|apply (fjson _ _ Fb)|exact E].
Qed.
Lemma t_vec_ok {A} (a : codec A) : faithful any a -> faithful any (c_vec a).
Proof.
  intros Fa. constructor.
  - intros f x _. apply (vec_back f any); [apply (fback _ _ Fa)|]. apply Forall_forall. intros; exact I.
  - intros; exact I.
  - discriminate.
  - intros f x E. apply vec_json; [apply (fjson _ _ Fa)|exact E].
Qed.
Lemma t_any_str : faithful any (t_str all_ok).
Proof. apply t_str_ok. intros s. split; [intros; exact I|reflexivity]. Qed.
Lemma t_any_num : faithful any (t_num all_ok).
Proof. apply t_num_ok. intros s. split; [intros; exact I|reflexivity]. Qed.

Section Toy.
Let secp_ok (k : bytes) : bool := match @secp_parse toy k with Some k' => bytes_eqb k' k | None => false end.
Let der_ok (k : bytes) : bool := match @der_parse toy k with Some k' => bytes_eqb k' k | None => false end.
Lemma secp_ok_iff k : secp_ok k = true <-> wf_secp (X := toy) k.
Proof.
  unfold secp_ok, wf_secp. destruct (@secp_parse toy k) as [k'|]; [|split; discriminate].
  rewrite bytes_eqb_eq. split; [now intros ->|now intros [= ->]].
Qed.
Lemma der_ok_iff k : der_ok k = true <-> @der_parse toy k = Some k.
Proof.
  unfold der_ok. destruct (@der_parse toy k) as [k'|]; [|split; discriminate].
  rewrite bytes_eqb_eq. split; [now intros ->|now intros [= ->]].
Qed.
Definition u32_ok (n : N) : bool := n <? U32.
Definition u64_ok (n : N) : bool := n <? U64.
Definition xonly_okb (k : bytes) : bool := Nat.eqb (length k) 32 && @xonly_ok toy k.
Definition leafver_okb (v : N) : bool := (v <? 256) && leaf_version_ok v.

(** Parts of a transaction (src/v2/map/input.rs:70). *)
Definition txin_parts := ((bytes * N) * (bytes * (N * list bytes)))%type.
Definition c_txin_parts : codec txin_parts :=
  c_pair (c_pair (t_str all_ok) (t_num all_ok)) (c_pair (t_str all_ok) (c_pair (t_num all_ok) (c_vec (t_str all_ok)))).
Definition txin_to (i : txin) : txin_parts := ((ti_txid i, ti_vout i), (ti_script_sig i, (ti_sequence i, ti_witness i))).
Definition txin_from (p : txin_parts) : txin := TxIn (fst (fst p)) (snd (fst p)) (fst (snd p)) (fst (snd (snd p))) (snd (snd (snd p))).
Definition txout_to (o : txout) : N * bytes := (to_value o, to_script o).
Definition txout_from (p : N * bytes) : txout := TxOut (fst p) (snd p).
Definition c_txout_parts : codec (N * bytes) := c_pair (t_num all_ok) (t_str all_ok).
Definition txin_okb (i : txin) : bool := Nat.eqb (length (ti_txid i)) 32 && u32_ok (ti_vout i) && u32_ok (ti_sequence i).
Definition tx_parts := ((N * N) * (list txin_parts * list (N * bytes)))%type.
Definition tx_to (t : tx) : tx_parts := ((tx_version t, tx_lock_time t), (map txin_to (tx_input t), map txout_to (tx_output t))).
Definition tx_from (p : tx_parts) : tx := Tx (fst (fst p)) (snd (fst p)) (map txin_from (fst (snd p))) (map txout_from (snd (snd p))).
Definition tx_okb (p : tx_parts) : bool :=
  let t := tx_from p in
  u32_ok (tx_version t) && u32_ok (tx_lock_time t) && forallb txin_okb (tx_input t) && forallb (fun o => u64_ok (to_value o)) (tx_output t).

Lemma u32_iff n : u32_ok n = true <-> wf_u32 n. Proof. apply N.ltb_lt. Qed.
Lemma u64_iff n : u64_ok n = true <-> wf_u64 n. Proof. apply N.ltb_lt. Qed.
Lemma xonly_iff k : xonly_okb k = true <-> wf_xonly (X := toy) k.
Proof. unfold xonly_okb, wf_xonly. rewrite Bool.andb_true_iff, Nat.eqb_eq. tauto. Qed.
Lemma leafver_iff k : leafver_okb k = true <-> wf_leafver k.
Proof. unfold leafver_okb, wf_leafver. rewrite Bool.andb_true_iff, N.ltb_lt. tauto. Qed.
Lemma txin_iff i : txin_okb i = true <-> typed_txin i.
Proof. unfold txin_okb, typed_txin, has_len. rewrite !Bool.andb_true_iff, Nat.eqb_eq, !u32_iff. tauto. Qed.
Lemma forallb_iff {A} (p : A -> bool) (P : A -> Prop) l : (forall a, p a = true <-> P a) -> (forallb p l = true <-> Forall P l).
Proof. intros H. rewrite forallb_forall, Forall_forall. split; intros G a Ha; apply H, G, Ha. Qed.
Lemma tx_from_to t : tx_from (tx_to t) = t.
Proof.
  destruct t as [v l i o]. unfold tx_from, tx_to. cbn. f_equal; rewrite map_map; rewrite <- map_id; apply map_ext; now intros [].
Qed.
Lemma tx_iff p : tx_okb p = true <-> typed_tx (tx_from p).
Proof.
  unfold tx_okb, typed_tx. cbv zeta. rewrite !Bool.andb_true_iff, !u32_iff, (forallb_iff _ _ _ txin_iff), (forallb_iff _ typed_txout).
  - tauto.
  - intros o. apply u64_iff.
Qed.

Definition pubkey_enc (k : pubkey) : bytes := (if pub_compressed k then x01 else x00) :: pub_inner k.
Definition pubkey_dec (s : bytes) : option pubkey :=
  match s with
  | b :: r => if secp_ok r then if beq b x01 then Some (PubKey true r) else if beq b x00 then Some (PubKey false r) else None else None
  | [] => None
  end.
Definition tap_tree_dec (s : bytes) : option taptree :=
  if blen s <? U64 then match de_taptree (X := toy) s with Ok t => Some t | _ => None end else None.
Definition cb_to (c : controlblock) := ((cb_ver c, if cb_parity c then 1 else 0), (cb_internal c, cb_branch c)).
Definition cb_from (p : (N * N) * (bytes * bytes)) := ControlBlock (fst (fst p)) (snd (fst p) =? 1) (fst (snd p)) (snd (snd p)).
Definition cb_okb (p : (N * N) * (bytes * bytes)) : bool :=
  leafver_okb (fst (fst p)) && xonly_okb (fst (snd p)) && (blen (snd (snd p)) mod 32 =? 0) && (blen (snd (snd p)) <=? 128 * 32).

(** The instance; every field stands for the type given at [SerdeExt] (Serde.v). *)
Definition toy_serde : SerdeExt := {|
  xc_tx_version := t_num u32_ok;
  xc_lock_time := t_num u32_ok;
  xc_xpub := t_text ser_xpub (de_xpub (X := toy));
  xc_fingerprint := t_len 4;
  xc_path := t_iso (c_vec (t_num all_ok)) (fun l => l) (fun l => l) (forallb u32_ok);
  xc_cpk := t_str secp_ok;
  xc_txid := t_len 32;
  xc_sequence := t_num u32_ok;
  xc_time := t_num (fun n => (LOCK_TIME_THRESHOLD <=? n) && (n <? U32));
  xc_height := t_num (fun n => n <? LOCK_TIME_THRESHOLD);
  xc_tx := t_iso (c_pair (c_pair (t_num all_ok) (t_num all_ok)) (c_pair (c_vec c_txin_parts) (c_vec c_txout_parts))) tx_to tx_from tx_okb;
  xc_txout := t_iso c_txout_parts txout_to txout_from (fun p => u64_ok (fst p));
  xc_pubkey := t_text pubkey_enc pubkey_dec;
  xc_esig := t_iso (c_pair (t_str all_ok) (t_num all_ok)) (fun s => (es_der s, es_type s)) (fun p => ESig (fst p) (snd p))
               (fun p => der_ok (fst p) && ecdsa_sighash_std (snd p));
  xc_script := t_str all_ok;
  xc_secp := t_str secp_ok;
  xc_witness := c_vec (t_str all_ok);
  xc_ripemd160 := t_len 20;
  xc_sha256 := t_len 32;
  xc_hash160 := t_len 20;
  xc_sha256d := t_len 32;
  xc_tsig := t_iso (c_pair (t_str all_ok) (t_num all_ok)) (fun s => (ts_sig s, ts_type s)) (fun p => TSig (fst p) (snd p))
               (fun p => Nat.eqb (length (fst p)) 64 && tap_sighash_std (snd p));
  xc_xonly := t_str xonly_okb;
  xc_leaf_hash := t_len 32;
  xc_control_block := t_iso (c_pair (c_pair (t_num all_ok) (t_num all_ok)) (c_pair (t_str all_ok) (t_str all_ok))) cb_to cb_from cb_okb;
  xc_leaf_version := t_num leafver_okb;
  xc_node_hash := t_len 32;
  xc_amount := t_num u64_ok;
  xc_tap_tree := t_text (ser_taptree) tap_tree_dec
|}.

Lemma toy_serde_laws : SerdeLaws toy toy_serde.
Proof.
  pose proof toy_laws as TL.
  constructor; cbn [toy_serde xc_tx_version xc_lock_time xc_xpub xc_fingerprint xc_path xc_cpk xc_txid xc_sequence xc_time xc_height
    xc_tx xc_txout xc_pubkey xc_esig xc_script xc_secp xc_witness xc_ripemd160 xc_sha256 xc_hash160 xc_sha256d xc_tsig xc_xonly
    xc_leaf_hash xc_control_block xc_leaf_version xc_node_hash xc_amount xc_tap_tree];
    try apply t_len_ok; try apply t_text_textual; try (apply t_num_ok; first [exact u32_iff | exact u64_iff | exact leafver_iff]);
    try (apply t_str_ok; first [exact secp_ok_iff | exact xonly_iff]); try exact t_any_str.
  - apply t_text_ok; [exact (de_xpub_rt (X := toy))|]. intros s x E. exact (proj1 (de_xpub_wf (X := toy) s x E)).
  - apply t_iso_ok; [apply t_vec_ok, t_any_num| |]; [|intros b H; now apply (forallb_iff u32_ok wf_u32 b u32_iff) in H].
    intros x H. split; [|reflexivity]. now apply (forallb_iff u32_ok wf_u32 x u32_iff).
  - apply t_num_ok. intros n. unfold wf_time. rewrite Bool.andb_true_iff, N.leb_le, N.ltb_lt. tauto.
  - apply t_num_ok. intros n. apply N.ltb_lt.
  - apply t_iso_ok.
    + apply t_pair_ok; [apply t_pair_ok; exact t_any_num|]. apply t_pair_ok; apply t_vec_ok.
      * unfold c_txin_parts. repeat (first [apply t_pair_ok | apply t_vec_ok | exact t_any_num | exact t_any_str]).
      * apply t_pair_ok; [exact t_any_num|exact t_any_str].
    + intros t H. split; [|apply tx_from_to]. apply tx_iff. now rewrite tx_from_to.
    + intros b. apply tx_iff.
  - apply t_iso_ok; [apply t_pair_ok; [exact t_any_num|exact t_any_str]| |].
    + intros [v s] H. split; [|reflexivity]. apply u64_iff. exact H.
    + intros b H. apply u64_iff in H. exact H.
  - apply t_text_ok.
    + intros [c k] H. unfold pubkey_dec, pubkey_enc. cbn [pub_compressed pub_inner]. apply secp_ok_iff in H. cbn [pub_inner] in H.
      rewrite H. now destruct c.
    + intros s x E. unfold pubkey_dec in E. destruct s as [|b r]; [discriminate|]. destruct (secp_ok r) eqn:G; [|discriminate].
      apply secp_ok_iff in G. destruct (beq b x01); [injection E as <-; exact G|]. destruct (beq b x00); [|discriminate].
      injection E as <-. exact G.
  - apply t_iso_ok; [apply t_pair_ok; [exact t_any_str|exact t_any_num]| |].
    + intros [d t] [H1 H2]. cbn in *. split; [|reflexivity]. apply der_ok_iff in H1. now rewrite H1, H2.
    + intros [d t] H. cbn in *. apply Bool.andb_true_iff in H as [H1 H2]. split; [now apply der_ok_iff|exact H2].
  - apply t_vec_ok, t_any_str.
  - apply t_iso_ok; [apply t_pair_ok; [exact t_any_str|exact t_any_num]| |].
    + intros [d t] [H1 H2]. cbn in *. split; [|reflexivity]. now rewrite H1, H2.
    + intros [d t] H. cbn in *. apply Bool.andb_true_iff in H as [H1 H2]. split; [now apply Nat.eqb_eq|exact H2].
  - apply t_iso_ok; [apply t_pair_ok; [apply t_pair_ok; exact t_any_num|apply t_pair_ok; exact t_any_str]| |].
    + intros [v p i b] (H1 & H2 & H3 & H4). unfold cb_okb, cb_to, cb_from. cbn in *. split.
      * apply leafver_iff in H1. apply xonly_iff in H2. apply N.eqb_eq in H3. apply N.leb_le in H4. now rewrite H1, H2, H3, H4.
      * now destruct p.
    + intros [[v p] [i b]] H. unfold cb_okb in H. cbn in H. rewrite !Bool.andb_true_iff in H. destruct H as (((H1 & H2) & H3) & H4).
      unfold wf_controlblock, cb_from. cbn. apply leafver_iff in H1. apply xonly_iff in H2. apply N.eqb_eq in H3. apply N.leb_le in H4. auto.
  - intros f t [(sh & Hs & Hn) Hl]. destruct (taptree_roundtrip_shape (X := toy) sh t Hs Hn) as (t' & E & Eh & _).
    exists t'. split; [|exact Eh]. cbn. unfold tap_tree_dec. apply N.ltb_lt in Hl. now rewrite Hl, E.
  - intros f v t E. cbn in E. destruct v; try discriminate. unfold tap_tree_dec in E. destruct (blen s <? U64) eqn:G; [|discriminate].
    apply N.ltb_lt in G. destruct (de_taptree s) as [t0| |] eqn:D; try discriminate. injection E as <-.
    destruct (de_taptree_shape (X := toy) s t0 G D) as [A B]. split; [exact A|]. rewrite B. exact G.
  - discriminate.
  - constructor.
Qed.
End Toy.

(** Proofs about the consensus encoding of [Consensus.v]. *)
From Verif Require Import Base Consensus.
Local Open Scope N_scope.

Ltac inv H := inversion H; subst; clear H.

(** Decompose a successful chain of binds in the hypothesis [H]. *)
Ltac binds H :=
  repeat first
    [ apply bind_ok in H;
      let a := fresh "x" in let Ha := fresh "Hx" in
      destruct H as [a [Ha H]];
      try (match type of a with (_ * _)%type => destruct a end)
    ].

(** ** Integers *)

Lemma c_take_rt n : rt (fun b => blen b = n) (fun b => b) (c_take n).
Proof. intros a rest H. unfold c_take. now rewrite take_app_n. Qed.

Lemma c_take_canon n : canon (fun b => blen b = n) (fun b => b) (c_take n).
Proof. intros bs a rest H. unfold c_take in H. apply ok_or_ok in H. now apply take_some. Qed.

Lemma c_take_nopanic n : nopanic (c_take n).
Proof. intros bs. unfold c_take. destruct (take n bs); discriminate. Qed.

Lemma dec_le_rt k : rt (fun n => n < 256 ^ N.of_nat k) (le_enc k) (dec_le (N.of_nat k)).
Proof.
  intros a rest H. unfold dec_le. rewrite c_take_rt.
  - cbn. now rewrite le_dec_enc.
  - unfold blen. now rewrite le_enc_length.
Qed.

Lemma dec_le_canon k : canon (fun n => n < 256 ^ N.of_nat k) (le_enc k) (dec_le (N.of_nat k)).
Proof.
  intros bs a rest H. unfold dec_le in H. binds H. inv H.
  apply c_take_canon in Hx as [-> Hl].
  assert (Hk : length b = k) by (unfold blen in Hl; lia).
  rewrite <- Hk. rewrite le_enc_dec. split; auto. apply le_dec_lt.
Qed.

Lemma dec_le_nopanic k : nopanic (dec_le k).
Proof.
  intros bs. unfold dec_le. pose proof (c_take_nopanic k bs).
  destruct (c_take k bs) as [[]| |]; cbn; congruence.
Qed.

Lemma dec_u32_rt : rt wf_u32 enc_u32 dec_u32.
Proof. exact (dec_le_rt 4). Qed.
Lemma dec_u32_canon : canon wf_u32 enc_u32 dec_u32.
Proof. exact (dec_le_canon 4). Qed.
Lemma dec_u64_rt : rt wf_u64 enc_u64 dec_u64.
Proof. exact (dec_le_rt 8). Qed.
Lemma dec_u64_canon : canon wf_u64 enc_u64 dec_u64.
Proof. exact (dec_le_canon 8). Qed.
Lemma dec_u32_nopanic : nopanic dec_u32.
Proof. apply dec_le_nopanic. Qed.
Lemma dec_u64_nopanic : nopanic dec_u64.
Proof. apply dec_le_nopanic. Qed.

Lemma enc_u32_length n : length (enc_u32 n) = 4%nat.
Proof. apply le_enc_length. Qed.
Lemma enc_u64_length n : length (enc_u64 n) = 8%nat.
Proof. apply le_enc_length. Qed.

Lemma dec_u8_nopanic : nopanic dec_u8.
Proof. intros [|b r]; discriminate. Qed.

(** ** Compact sizes *)

Lemma dec_varint_rt : rt wf_u64 enc_varint dec_varint.
Proof.
  intros n rest H. unfold enc_varint. unfold wf_u64, U64 in H.
  destruct (n <? 253) eqn:E1.
  { cbn [app]. unfold dec_varint. rewrite b2n_n2b by lia.
    destruct (n =? 255) eqn:E2; [lia|]. destruct (n =? 254) eqn:E3; [lia|].
    destruct (n =? 253) eqn:E4; [lia|]. reflexivity. }
  destruct (n <? 65536) eqn:E2.
  { rewrite <- app_comm_cons. unfold dec_varint.
    change (b2n xfd =? 255) with false. change (b2n xfd =? 254) with false.
    change (b2n xfd =? 253) with true. cbv iota.
    rewrite (dec_le_rt 2) by (cbn; lia). cbn. now rewrite E1. }
  destruct (n <? 4294967296) eqn:E3.
  { rewrite <- app_comm_cons. unfold dec_varint.
    change (b2n xfe =? 255) with false. change (b2n xfe =? 254) with true.
    cbv iota.
    rewrite (dec_le_rt 4) by (cbn; lia). cbn. now rewrite E2. }
  rewrite <- app_comm_cons. unfold dec_varint.
  change (b2n xff =? 255) with true. cbv iota.
  rewrite (dec_le_rt 8) by (cbn; lia). cbn. now rewrite E3.
Qed.

Lemma dec_varint_canon : canon wf_u64 enc_varint dec_varint.
Proof.
  intros bs n rest H. unfold dec_varint in H. destruct bs as [|b r]; [discriminate|].
  cbv zeta in H. pose proof (b2n_lt b) as Hb.
  assert (HB : forall k, b2n b = k -> b = n2b k) by (intros k <-; now rewrite n2b_b2n).
  destruct (b2n b =? 255) eqn:E1.
  { binds H. destruct (n0 <? 4294967296) eqn:E; [discriminate|]. inv H.
    apply (dec_le_canon 8) in Hx as [-> Hn]. cbn in Hn.
    rewrite (HB 255) by lia. split; [|unfold wf_u64, U64; lia].
    unfold enc_varint. destruct (n <? 253) eqn:?; [lia|].
    destruct (n <? 65536) eqn:?; [lia|]. destruct (n <? 4294967296) eqn:?; [lia|].
    reflexivity. }
  destruct (b2n b =? 254) eqn:E2.
  { binds H. destruct (n0 <? 65536) eqn:E; [discriminate|]. inv H.
    apply (dec_le_canon 4) in Hx as [-> Hn]. cbn in Hn.
    rewrite (HB 254) by lia. split; [|unfold wf_u64, U64; lia].
    unfold enc_varint. destruct (n <? 253) eqn:?; [lia|].
    destruct (n <? 65536) eqn:?; [lia|]. destruct (n <? 4294967296) eqn:?; [|lia].
    reflexivity. }
  destruct (b2n b =? 253) eqn:E3.
  { binds H. destruct (n0 <? 253) eqn:E; [discriminate|]. inv H.
    apply (dec_le_canon 2) in Hx as [-> Hn]. cbn in Hn.
    rewrite (HB 253) by lia. split; [|unfold wf_u64, U64; lia].
    unfold enc_varint. destruct (n <? 253) eqn:?; [lia|].
    destruct (n <? 65536) eqn:?; [|lia].
    reflexivity. }
  inv H. split; [|unfold wf_u64, U64; lia].
  unfold enc_varint. destruct (b2n b <? 253) eqn:?; [|lia].
  now rewrite n2b_b2n.
Qed.

Lemma dec_varint_nopanic : nopanic dec_varint.
Proof.
  intros [|b r]; [discriminate|]. unfold dec_varint. cbv zeta.
  repeat match goal with
  | |- context [dec_le ?k r] => pose proof (dec_le_nopanic k r); destruct (dec_le k r) as [[]| |]
  | |- context [if ?c then _ else _] => destruct c
  end; cbn; try congruence;
  repeat match goal with
  | |- context [if ?c then _ else _] => destruct c
  end; congruence.
Qed.

Lemma enc_varint_nonempty n : enc_varint n <> [].
Proof. unfold enc_varint. repeat destruct (_ <? _); discriminate. Qed.

Lemma varint_size_bounds n : 1 <= varint_size n <= 9.
Proof.
  unfold varint_size, enc_varint, blen.
  repeat destruct (_ <? _); cbn [length]; rewrite ?le_enc_length; lia.
Qed.

(** ** Byte vectors *)

Lemma dec_bytes_rt : rt wf_vec enc_bytes dec_bytes.
Proof.
  intros a rest H. unfold dec_bytes, enc_bytes. rewrite <- app_assoc.
  rewrite dec_varint_rt by exact H. cbn. now apply c_take_rt.
Qed.

Lemma dec_bytes_canon : canon wf_vec enc_bytes dec_bytes.
Proof.
  intros bs a rest H. unfold dec_bytes in H. binds H.
  apply dec_varint_canon in Hx as [-> Hn]. apply c_take_canon in H as [-> Hl].
  unfold enc_bytes. rewrite Hl, app_assoc. split; auto. unfold wf_vec. now rewrite Hl.
Qed.

Lemma dec_bytes_nopanic : nopanic dec_bytes.
Proof.
  intros bs. unfold dec_bytes. pose proof (dec_varint_nopanic bs).
  destruct (dec_varint bs) as [[n r]| |]; cbn; try congruence. apply c_take_nopanic.
Qed.

Lemma enc_bytes_nonempty b : enc_bytes b <> [].
Proof.
  unfold enc_bytes. pose proof (enc_varint_nonempty (blen b)).
  destruct (enc_varint (blen b)); [congruence|discriminate].
Qed.

(** ** Vectors *)

Lemma enc_all_length_ge {A} (enc : A -> bytes) l :
  (forall a, In a l -> enc a <> []) -> (length l <= length (enc_all enc l))%nat.
Proof.
  induction l as [|a l IH]; intros H; [cbn; lia|].
  rewrite enc_all_cons, app_length. cbn [length].
  assert (Ha : enc a <> []) by (apply H; now left).
  assert (IHl : (length l <= length (enc_all enc l))%nat) by (apply IH; intros; apply H; now right).
  destruct (enc a); [congruence|]. cbn. lia.
Qed.

Lemma dec_count_rt {A} (wf : A -> Prop) enc dec :
  rt wf enc dec ->
  forall l fuel rest, Forall wf l -> (length l <= fuel)%nat ->
    dec_count dec fuel (blen l) (enc_all enc l ++ rest) = Ok (l, rest).
Proof.
  intros Hrt l fuel rest H. revert fuel.
  induction H as [|a l Ha Hl IH]; intros fuel Hf.
  - destruct fuel; reflexivity.
  - destruct fuel as [|f]; [cbn in Hf; lia|]. cbn [dec_count].
    destruct (blen (a :: l) =? 0) eqn:E; [rewrite blen_cons in E; lia|].
    rewrite enc_all_cons, <- app_assoc, Hrt by assumption. cbn [bind].
    replace (blen (a :: l) - 1) with (blen l) by (rewrite blen_cons; lia).
    rewrite IH by (cbn in Hf; lia). reflexivity.
Qed.

Lemma dec_count_canon {A} (wf : A -> Prop) enc dec :
  canon wf enc dec ->
  forall fuel n bs l rest, dec_count dec fuel n bs = Ok (l, rest) ->
    bs = enc_all enc l ++ rest /\ Forall wf l /\ blen l = n.
Proof.
  intros Hc fuel; induction fuel as [|f IH]; intros n bs l rest H; cbn in H;
    destruct (n =? 0) eqn:E; try (inv H; repeat split; auto; cbn; lia).
  binds H. inv H.
  apply Hc in Hx as [-> Hwf]. apply IH in Hx0 as (-> & Hl & Hn).
  rewrite enc_all_cons, app_assoc, blen_cons. repeat split; auto. lia.
Qed.

(** The fuel of [dec_vec] is not a limit of its own: running out of it would take
    more items than there are bytes. *)
Lemma dec_count_fuel {A} (wf : A -> Prop) enc dec :
  canon wf enc dec -> (forall a, wf a -> enc a <> []) ->
  forall f1 f2 n bs, (length bs < f1)%nat -> (length bs < f2)%nat ->
    dec_count dec f1 n bs = dec_count dec f2 n bs.
Proof.
  intros Hc Hne f1; induction f1 as [|f1 IH]; intros f2 n bs H1 H2; [lia|].
  destruct f2 as [|f2]; [lia|]. cbn.
  destruct (n =? 0); auto.
  destruct (dec bs) as [[a r]| |] eqn:Ed; cbn; auto.
  apply Hc in Ed as [-> Hwf]. pose proof (Hne a Hwf) as Hn. rewrite app_length in *.
  rewrite (IH f2); auto; destruct (enc a); try congruence; cbn in *; lia.
Qed.

Lemma dec_count_nopanic {A} (dec : reader cerr A) :
  nopanic dec -> forall fuel n bs, dec_count dec fuel n bs <> Panic.
Proof.
  intros Hp fuel; induction fuel as [|f IH]; intros n bs; cbn; destruct (n =? 0); try discriminate.
  pose proof (Hp bs). destruct (dec bs) as [[a r]| |]; cbn; try congruence.
  pose proof (IH (n - 1) r). destruct (dec_count dec f (n - 1) r) as [[]| |]; cbn; congruence.
Qed.

Lemma dec_vec_rt {A} (wf : A -> Prop) enc dec :
  rt wf enc dec -> (forall a, wf a -> enc a <> []) ->
  rt (fun l => wf_vec l /\ Forall wf l) (enc_vec enc) (dec_vec dec).
Proof.
  intros Hrt Hne l rest [Hl Hf]. unfold dec_vec, enc_vec. rewrite <- app_assoc.
  rewrite dec_varint_rt by exact Hl. cbn [bind].
  apply dec_count_rt with (wf := wf); auto.
  rewrite app_length.
  assert ((length l <= length (enc_all enc l))%nat); [|lia].
  apply enc_all_length_ge. intros a Ha. apply Hne. rewrite Forall_forall in Hf. auto.
Qed.

Lemma dec_vec_canon {A} (wf : A -> Prop) enc dec :
  canon wf enc dec ->
  canon (fun l => wf_vec l /\ Forall wf l) (enc_vec enc) (dec_vec dec).
Proof.
  intros Hc bs l rest H. unfold dec_vec in H. binds H.
  apply dec_varint_canon in Hx as [-> Hn].
  apply dec_count_canon with (wf := wf) (enc := enc) in H as (-> & Hf & Hl); auto.
  unfold enc_vec. rewrite Hl, app_assoc. repeat split; auto. unfold wf_vec. now rewrite Hl.
Qed.

Lemma dec_vec_nopanic {A} (dec : reader cerr A) : nopanic dec -> nopanic (dec_vec dec).
Proof.
  intros Hp bs. unfold dec_vec. pose proof (dec_varint_nopanic bs).
  destruct (dec_varint bs) as [[n r]| |]; cbn [bind]; try congruence.
  now apply dec_count_nopanic.
Qed.

Lemma enc_vec_nonempty {A} (enc : A -> bytes) l : enc_vec enc l <> [].
Proof.
  unfold enc_vec. pose proof (enc_varint_nonempty (blen l)).
  destruct (enc_varint (blen l)); [congruence|discriminate].
Qed.

(** ** Outputs and inputs *)

Lemma dec_txout_rt : rt wf_txout enc_txout dec_txout.
Proof.
  intros [v s] rest [Hv Hs]. cbn in Hv, Hs. unfold enc_txout, dec_txout. cbn [to_value to_script].
  rewrite <- app_assoc, dec_u64_rt by assumption. cbn [bind].
  rewrite dec_bytes_rt by assumption. reflexivity.
Qed.

Lemma dec_txout_canon : canon wf_txout enc_txout dec_txout.
Proof.
  intros bs a rest H. unfold dec_txout in H. binds H. inv H.
  apply dec_u64_canon in Hx as [-> Hv]. apply dec_bytes_canon in Hx0 as [-> Hs].
  unfold enc_txout. cbn [to_value to_script]. rewrite <- app_assoc. split; auto. split; auto.
Qed.

Lemma dec_txout_nopanic : nopanic dec_txout.
Proof.
  intros bs. unfold dec_txout. pose proof (dec_u64_nopanic bs).
  destruct (dec_u64 bs) as [[v r]| |]; cbn; try congruence.
  pose proof (dec_bytes_nopanic r). destruct (dec_bytes r) as [[s r']| |]; cbn; congruence.
Qed.

Lemma enc_txout_nonempty o : enc_txout o <> [].
Proof.
  unfold enc_txout. pose proof (enc_u64_length (to_value o)).
  destruct (enc_u64 (to_value o)); [discriminate|]. discriminate.
Qed.

(** Input encodings carry no witness. *)
Definition wf_txin0 (i : txin) : Prop := wf_txin i /\ ti_witness i = [].

Lemma wf_witness_nil : wf_witness [].
Proof. unfold wf_witness. cbn. unfold MAX_VEC_SIZE. lia. Qed.

Lemma dec_txin_rt : rt wf_txin0 enc_txin dec_txin.
Proof.
  intros [t v s q w] rest [(Ht & Hv & Hs & Hq & Hw) Hn]. cbn in Ht, Hv, Hs, Hq, Hn. subst w.
  unfold enc_txin, dec_txin. cbn [ti_txid ti_vout ti_script_sig ti_sequence]. rewrite <- !app_assoc.
  rewrite c_take_rt by (unfold blen; lia). cbn [bind].
  rewrite dec_u32_rt by assumption. cbn [bind].
  rewrite dec_bytes_rt by assumption. cbn [bind].
  rewrite dec_u32_rt by assumption. reflexivity.
Qed.

Lemma dec_txin_canon : canon wf_txin0 enc_txin dec_txin.
Proof.
  intros bs a rest H. unfold dec_txin in H. binds H. inv H.
  apply c_take_canon in Hx as [-> Ht]. apply dec_u32_canon in Hx0 as [-> Hv].
  apply dec_bytes_canon in Hx1 as [-> Hs]. apply dec_u32_canon in Hx2 as [-> Hq].
  unfold enc_txin. cbn [ti_txid ti_vout ti_script_sig ti_sequence]. rewrite <- !app_assoc. split; auto.
  unfold wf_txin0, wf_txin. cbn. repeat split; auto.
  unfold blen in Ht. lia. apply wf_witness_nil.
Qed.

Lemma dec_txin_nopanic : nopanic dec_txin.
Proof.
  intros bs. unfold dec_txin. pose proof (c_take_nopanic 32 bs).
  destruct (c_take 32 bs) as [[t r]| |]; cbn [bind]; try congruence.
  pose proof (dec_u32_nopanic r). destruct (dec_u32 r) as [[v r']| |]; cbn [bind]; try congruence.
  pose proof (dec_bytes_nopanic r'). destruct (dec_bytes r') as [[s r'']| |]; cbn [bind]; try congruence.
  pose proof (dec_u32_nopanic r''). destruct (dec_u32 r'') as [[q r''']| |]; cbn [bind]; congruence.
Qed.

Lemma enc_txin_nonempty i : wf_txin i -> enc_txin i <> [].
Proof.
  intros (Ht & _). unfold enc_txin. destruct (ti_txid i); [discriminate|]. discriminate.
Qed.

(** ** Witnesses *)

Lemma wit_size_count w : blen w <= wit_size w.
Proof.
  induction w as [|e w IH]; [cbn; lia|]. rewrite blen_cons. cbn [wit_size].
  pose proof (varint_size_bounds (blen e)). lia.
Qed.

Lemma wit_size_len w : blen (enc_all enc_bytes w) = wit_size w.
Proof.
  induction w as [|e w IH]; [reflexivity|]. rewrite enc_all_cons, blen_app, IH. cbn [wit_size].
  unfold enc_bytes. rewrite blen_app. unfold varint_size. lia.
Qed.

Lemma dec_wit_items_rt w : forall used rest,
  used + wit_size w <= MAX_VEC_SIZE ->
  dec_wit_items (length w) used (enc_all enc_bytes w ++ rest) = Ok (w, rest).
Proof.
  unfold MAX_VEC_SIZE. induction w as [|e w IH]; intros used rest H; [reflexivity|].
  cbn [length dec_wit_items wit_size] in *. rewrite enc_all_cons, <- app_assoc.
  unfold enc_bytes at 1. rewrite <- app_assoc.
  pose proof (varint_size_bounds (blen e)).
  rewrite dec_varint_rt by (unfold wf_u64, U64; lia). cbn [bind].
  unfold MAX_VEC_SIZE.
  destruct (4000000 <? used + blen e + varint_size (blen e)) eqn:E; [lia|].
  rewrite c_take_rt by reflexivity. cbn [bind].
  rewrite IH by lia. reflexivity.
Qed.

Lemma dec_wit_items_canon n : forall used bs w rest,
  used <= MAX_VEC_SIZE ->
  dec_wit_items n used bs = Ok (w, rest) ->
  bs = enc_all enc_bytes w ++ rest /\ used + wit_size w <= MAX_VEC_SIZE /\ length w = n.
Proof.
  induction n as [|n IH]; intros used bs w rest Hu H; cbn [dec_wit_items] in H.
  - inv H. repeat split; auto. cbn [wit_size]. lia.
  - binds H. destruct (MAX_VEC_SIZE <? used + n0 + varint_size n0) eqn:E; [discriminate|].
    binds H. inv H.
    apply dec_varint_canon in Hx as [-> Hs]. apply c_take_canon in Hx0 as [-> Hl].
    apply IH in Hx1 as (-> & Hw & Hn); [|lia].
    rewrite enc_all_cons. unfold enc_bytes at 2. cbn [wit_size length]. rewrite Hl.
    rewrite <- !app_assoc. repeat split; auto. lia.
Qed.

Lemma dec_witness_rt : rt wf_witness enc_witness dec_witness.
Proof.
  intros w rest H. unfold wf_witness in H. unfold dec_witness, enc_witness, enc_vec.
  pose proof (wit_size_count w). unfold MAX_VEC_SIZE in *.
  rewrite <- app_assoc, dec_varint_rt by (unfold wf_u64, U64; lia). cbn [bind].
  destruct (4000000 <? blen w) eqn:E; [lia|].
  unfold blen at 1. rewrite Nat2N.id. apply dec_wit_items_rt. unfold MAX_VEC_SIZE. lia.
Qed.

Lemma dec_witness_canon : canon wf_witness enc_witness dec_witness.
Proof.
  intros bs w rest H. unfold dec_witness in H. binds H.
  destruct (MAX_VEC_SIZE <? n) eqn:E; [discriminate|].
  apply dec_varint_canon in Hx as [-> Hn].
  apply dec_wit_items_canon in H as (-> & Hw & Hl); [|unfold MAX_VEC_SIZE; lia].
  unfold enc_witness, enc_vec. replace (blen w) with n by (unfold blen; lia).
  rewrite app_assoc. split; auto.
Qed.

Lemma dec_wit_items_nopanic n : forall used bs, dec_wit_items n used bs <> Panic.
Proof.
  induction n as [|n IH]; intros used bs; cbn [dec_wit_items]; [discriminate|].
  pose proof (dec_varint_nopanic bs). destruct (dec_varint bs) as [[s r]| |]; cbn [bind]; try congruence.
  cbv zeta. destruct (MAX_VEC_SIZE <? _); [discriminate|].
  pose proof (c_take_nopanic s r). destruct (c_take s r) as [[e r']| |]; cbn [bind]; try congruence.
  pose proof (IH (used + s + varint_size s) r').
  destruct (dec_wit_items n _ r') as [[]| |]; cbn [bind]; congruence.
Qed.

Lemma dec_witness_nopanic : nopanic dec_witness.
Proof.
  intros bs. unfold dec_witness. pose proof (dec_varint_nopanic bs).
  destruct (dec_varint bs) as [[n r]| |]; cbn [bind]; try congruence.
  destruct (MAX_VEC_SIZE <? n); [discriminate|]. apply dec_wit_items_nopanic.
Qed.

(** ** Transactions *)

Definition strip_witness (i : txin) : txin := with_witness i [].

Lemma strip_wf i : wf_txin i -> wf_txin0 (strip_witness i).
Proof.
  intros (? & ? & ? & ? & ?). unfold wf_txin0, wf_txin. cbn. repeat split; auto.
  apply wf_witness_nil.
Qed.

Lemma enc_txin_strip i : enc_txin (strip_witness i) = enc_txin i.
Proof. reflexivity. Qed.

Lemma enc_all_strip l : enc_all enc_txin (map strip_witness l) = enc_all enc_txin l.
Proof. unfold enc_all. rewrite map_map. reflexivity. Qed.

Lemma blen_map {A B} (f : A -> B) l : blen (map f l) = blen l.
Proof. unfold blen. now rewrite map_length. Qed.

Lemma enc_vec_strip l : enc_vec enc_txin (map strip_witness l) = enc_vec enc_txin l.
Proof. unfold enc_vec. now rewrite enc_all_strip, blen_map. Qed.

Lemma with_witness_strip i : with_witness (strip_witness i) (ti_witness i) = i.
Proof. destruct i; reflexivity. Qed.

Lemma dec_witnesses_rt l : forall rest,
  Forall wf_txin l ->
  dec_witnesses (map strip_witness l) (enc_all (fun i => enc_witness (ti_witness i)) l ++ rest)
  = Ok (l, rest).
Proof.
  induction l as [|i l IH]; intros rest H; [reflexivity|].
  inv H. cbn [map dec_witnesses]. rewrite enc_all_cons, <- app_assoc.
  rewrite dec_witness_rt by (destruct H2 as (?&?&?&?&?); assumption). cbn [bind].
  rewrite IH by assumption. cbn [bind]. now rewrite with_witness_strip.
Qed.

Lemma dec_witnesses_canon l : forall bs l' rest,
  Forall wf_txin0 l ->
  dec_witnesses l bs = Ok (l', rest) ->
  bs = enc_all (fun i => enc_witness (ti_witness i)) l' ++ rest
  /\ Forall wf_txin l' /\ l = map strip_witness l'.
Proof.
  induction l as [|i l IH]; intros bs l' rest Hf H; cbn [dec_witnesses] in H.
  - inv H. auto.
  - inv Hf. binds H. inv H. apply dec_witness_canon in Hx as [-> Hw].
    apply IH in Hx0 as (-> & Hl & Hm); auto.
    rewrite enc_all_cons, <- app_assoc. cbn. split; auto. split.
    + constructor; auto. destruct H2 as [(?&?&?&?&?) ?]. repeat split; auto.
    + f_equal; auto. destruct i; destruct H2; cbn in *; subst. reflexivity.
Qed.

Lemma dec_witnesses_nopanic l : forall bs, dec_witnesses l bs <> Panic.
Proof.
  induction l as [|i l IH]; intros bs; cbn [dec_witnesses]; [discriminate|].
  pose proof (dec_witness_nopanic bs). destruct (dec_witness bs) as [[w r]| |]; cbn [bind]; try congruence.
  pose proof (IH r). destruct (dec_witnesses l r) as [[]| |]; cbn [bind]; congruence.
Qed.

Lemma map_strip_id l : all_witness_empty l = true -> map strip_witness l = l.
Proof.
  induction l as [|i l IH]; cbn; auto. rewrite andb_true_iff. intros [H1 H2].
  f_equal; auto. destruct i as [? ? ? ? []]; [reflexivity|discriminate].
Qed.

Lemma Forall_strip_wf l : Forall wf_txin l -> Forall wf_txin0 (map strip_witness l).
Proof. intros H. rewrite Forall_map. eapply Forall_impl; [|exact H]. apply strip_wf. Qed.

Lemma segwit_all_empty l :
  existsb (fun i => negb (match ti_witness i with [] => true | _ => false end)) l
  = negb (all_witness_empty l).
Proof.
  induction l as [|i l IH]; [reflexivity|]. cbn.
  rewrite IH. now rewrite negb_andb.
Qed.

Lemma dec_txins_rt : rt (fun l => wf_vec l /\ Forall wf_txin0 l) (enc_vec enc_txin) (dec_vec dec_txin).
Proof.
  apply dec_vec_rt; [apply dec_txin_rt|]. intros a [H _]. now apply enc_txin_nonempty.
Qed.
Lemma dec_txouts_rt : rt (fun l => wf_vec l /\ Forall wf_txout l) (enc_vec enc_txout) (dec_vec dec_txout).
Proof.
  apply dec_vec_rt; [apply dec_txout_rt|]. intros. apply enc_txout_nonempty.
Qed.

Lemma dec_tx_rt : rt wf_tx enc_tx dec_tx.
Proof.
  intros [v lt ins outs] rest (Hv & Hlt & Hni & Hi & Hno & Ho). cbn in Hv, Hlt, Hni, Hi, Hno, Ho.
  unfold enc_tx. destruct (tx_segwit _) eqn:Es; unfold enc_tx_nowit; cbn [tx_version tx_lock_time tx_input tx_output];
    unfold dec_tx; rewrite <- !app_assoc; rewrite dec_u32_rt by assumption; cbn [bind].
  - change ([x00; x01] ++ ?x) with (enc_vec enc_txin [] ++ x01 :: x).
    rewrite dec_txins_rt by (split; [reflexivity | constructor]). cbn [bind].
    unfold dec_u8. cbn [bind]. change (b2n x01 =? 1) with true. cbv iota.
    rewrite <- enc_vec_strip.
    rewrite dec_txins_rt.
    2:{ split; [unfold wf_vec; now rewrite blen_map | now apply Forall_strip_wf]. }
    cbn [bind]. rewrite dec_txouts_rt by auto. cbn [bind].
    rewrite dec_witnesses_rt by assumption. cbn [bind].
    unfold tx_segwit in Es. cbn in Es. rewrite segwit_all_empty in Es.
    replace (negb _ && all_witness_empty ins) with false.
    2:{ destruct ins; [reflexivity|]. rewrite orb_false_r in Es.
        destruct (all_witness_empty _); [discriminate|]. now rewrite andb_false_r. }
    rewrite dec_u32_rt by assumption. reflexivity.
  - unfold tx_segwit in Es. cbn in Es. rewrite segwit_all_empty in Es.
    apply orb_false_iff in Es as [E1 E2]. rewrite negb_false_iff in E1.
    rewrite dec_txins_rt.
    2:{ split; [assumption|]. rewrite <- (map_strip_id ins) by assumption. now apply Forall_strip_wf. }
    cbn [bind]. destruct ins as [|i ins]; [discriminate|].
    rewrite dec_txouts_rt by auto. cbn [bind].
    rewrite dec_u32_rt by assumption. reflexivity.
Qed.

Lemma dec_tx_canon : canon wf_tx enc_tx dec_tx.
Proof.
  intros bs t rest H. unfold dec_tx in H. binds H.
  apply dec_u32_canon in Hx as [-> Hv].
  apply (dec_vec_canon _ _ _ dec_txin_canon) in Hx0 as [-> [Hni Hi]].
  destruct l as [|i ins].
  - binds H. destruct (n0 =? 1) eqn:Ef; [|discriminate]. binds H.
    destruct (negb _ && _) eqn:Ew; [discriminate|]. binds H. inv H.
    unfold dec_u8 in Hx. destruct b0 as [|fb r3]; [discriminate|]. inv Hx.
    apply (dec_vec_canon _ _ _ dec_txin_canon) in Hx0 as [-> [Hni' Hi']].
    apply (dec_vec_canon _ _ _ dec_txout_canon) in Hx1 as [-> [Hno Ho]].
    apply dec_witnesses_canon in Hx2 as (-> & Hw & ->); auto.
    apply dec_u32_canon in Hx3 as [-> Hlt].
    rewrite enc_vec_strip.
    assert (Hfb : fb = x01) by (apply b2n_inj; change (b2n x01) with 1; lia). subst fb.
    assert (Es : tx_segwit (Tx n n1 l1 l0) = true).
    { unfold tx_segwit. cbn. rewrite segwit_all_empty. destruct l1; [apply orb_true_r|].
      cbn in Ew. cbn. rewrite Ew. reflexivity. }
    split.
    + unfold enc_tx. rewrite Es. cbn. rewrite <- !app_assoc. reflexivity.
    + unfold wf_vec in Hni'. rewrite blen_map in Hni'.
      repeat split; auto.
  - binds H. inv H.
    apply (dec_vec_canon _ _ _ dec_txout_canon) in Hx as [-> [Hno Ho]].
    apply dec_u32_canon in Hx0 as [-> Hlt].
    assert (Ea : all_witness_empty (i :: ins) = true).
    { unfold all_witness_empty. apply forallb_forall. intros x Hx. rewrite Forall_forall in Hi.
      destruct (Hi x Hx) as [_ ->]. reflexivity. }
    split.
    + unfold enc_tx, tx_segwit. cbn [tx_input]. rewrite segwit_all_empty, Ea. cbn [negb orb].
      unfold enc_tx_nowit. cbn. rewrite <- !app_assoc. reflexivity.
    + repeat split; auto. eapply Forall_impl; [|exact Hi]. now intros a [].
Qed.

Lemma dec_tx_nopanic : nopanic dec_tx.
Proof.
  assert (Hi : nopanic (dec_vec dec_txin)) by apply dec_vec_nopanic, dec_txin_nopanic.
  assert (Ho : nopanic (dec_vec dec_txout)) by apply dec_vec_nopanic, dec_txout_nopanic.
  intros bs. unfold dec_tx. pose proof (dec_u32_nopanic bs).
  destruct (dec_u32 bs) as [[v r]| |]; cbn [bind]; try congruence.
  pose proof (Hi r). destruct (dec_vec dec_txin r) as [[ins r2]| |]; cbn [bind]; try congruence.
  destruct ins.
  - pose proof (dec_u8_nopanic r2). destruct (dec_u8 r2) as [[f r3]| |]; cbn [bind]; try congruence.
    destruct (f =? 1); [|discriminate].
    pose proof (Hi r3). destruct (dec_vec dec_txin r3) as [[ins' r4]| |]; cbn [bind]; try congruence.
    pose proof (Ho r4). destruct (dec_vec dec_txout r4) as [[outs r5]| |]; cbn [bind]; try congruence.
    pose proof (dec_witnesses_nopanic ins' r5).
    destruct (dec_witnesses ins' r5) as [[ins'' r6]| |]; cbn [bind]; try congruence.
    destruct (_ && _); [discriminate|].
    pose proof (dec_u32_nopanic r6). destruct (dec_u32 r6) as [[lt r7]| |]; cbn [bind]; congruence.
  - pose proof (Ho r2). destruct (dec_vec dec_txout r2) as [[outs r3]| |]; cbn [bind]; try congruence.
    pose proof (dec_u32_nopanic r3). destruct (dec_u32 r3) as [[lt r7]| |]; cbn [bind]; congruence.
Qed.

(** ** Full consumption *)

Lemma c_deserialize_rt {A} (wf : A -> Prop) enc dec a :
  rt wf enc dec -> wf a -> c_deserialize dec (enc a) = Ok a.
Proof.
  intros Hrt Hwf. unfold c_deserialize. rewrite <- (app_nil_r (enc a)), Hrt by assumption.
  reflexivity.
Qed.

Lemma c_deserialize_canon {A} (wf : A -> Prop) enc dec bs a :
  canon wf enc dec -> c_deserialize dec bs = Ok a -> bs = enc a /\ wf a.
Proof.
  intros Hc H. unfold c_deserialize in H. binds H. destruct b; [|discriminate]. inv H.
  apply Hc in Hx as [-> Hwf]. now rewrite app_nil_r.
Qed.

Lemma c_deserialize_nopanic {A} (dec : reader cerr A) bs :
  nopanic dec -> c_deserialize dec bs <> Panic.
Proof.
  intros Hp. unfold c_deserialize. pose proof (Hp bs).
  destruct (dec bs) as [[a [|]]| |]; cbn; congruence.
Qed.

(** The weight is never zero, so the fee rate division is well defined. *)
Lemma tx_weight_pos t : 0 < tx_weight t.
Proof.
  unfold tx_weight, tx_base_size, enc_tx_nowit. rewrite !blen_app.
  unfold blen at 1. rewrite enc_u32_length. lia.
Qed.

(** Keep encoders and readers folded under [cbn] and [simpl] from here on. *)
Global Arguments enc_all : simpl never.
Global Arguments blen : simpl never.
Global Arguments enc_u32 : simpl never.
Global Arguments enc_u64 : simpl never.
Global Arguments enc_varint : simpl never.
Global Arguments enc_bytes : simpl never.
Global Arguments enc_vec : simpl never.
Global Arguments dec_u32 : simpl never.
Global Arguments dec_u64 : simpl never.
Global Arguments dec_varint : simpl never.
Global Arguments dec_bytes : simpl never.
Global Arguments dec_vec : simpl never.
Global Arguments firstn : simpl never.
Global Arguments skipn : simpl never.

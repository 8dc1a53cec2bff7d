(** Which values are refused by src/serialize.rs, and with which error. *)
From Verif Require Import Base OMap Consensus ConsensusFacts Ext Raw TapTree TapTreeFacts Serialize SerializeFacts
  SpecCodec SpecCodecFacts SpecTx TxWireFacts SpecTapTree TapTreeWireFacts SpecValueErrors.
Local Open Scope N_scope.

Lemma bind_err' {E A B} (x : res E A) (f : A -> res E B) e : bind x f = Err e <-> x = Err e \/ exists a, x = Ok a /\ f a = Err e.
Proof.
  destruct x as [a| |]; cbn; split; intros H.
  - right; eauto.
  - destruct H as [H|(? & [= ->] & H)]; [discriminate|exact H].
  - left; congruence.
  - destruct H as [H|(? & [=] & H)]. congruence.
  - discriminate.
  - destruct H as [H|(? & [=] & H)]; congruence.
Qed.
Lemma map_err_err' {E E' A} (g : E -> E') (x : res E A) e : map_err g x = Err e <-> exists e', x = Err e' /\ e = g e'.
Proof.
  destruct x as [a|e0|]; cbn; split; intros H.
  - discriminate.
  - destruct H as (? & [=] & _).
  - exists e0. split; congruence.
  - destruct H as (? & [= ->] & ->). reflexivity.
  - discriminate.
  - destruct H as (? & [=] & _).
Qed.

(** ** Truncated and padded values *)
(** A reader that succeeds does so on the bytes that it takes only, and runs out of bytes otherwise. *)
Definition cuts {A} (dec : reader cerr A) : Prop := forall p s x r, dec (p ++ s) = Ok (x, r) ->
  (exists r', r = r' ++ s /\ dec p = Ok (x, r')) \/ dec p = Err CIo.
Lemma cuts_bind {A B} (dec : reader cerr A) (f : A -> reader cerr B) :
  cuts dec -> (forall a, cuts (f a)) -> cuts (fun bs => '(a, r) <- dec bs ;; f a r).
Proof.
  intros Hd Hf p s x r H. cbn beta in *. destruct (dec (p ++ s)) as [[a r1]| |] eqn:E; try discriminate. cbn [bind] in H.
  destruct (Hd _ _ _ _ E) as [(r' & -> & E')|E']; rewrite E'; cbn [bind]; [|right; reflexivity].
  exact (Hf a _ _ _ _ H).
Qed.
Lemma cuts_ret {A} (a : A) : cuts (fun bs => Ok (a, bs)).
Proof. intros p s x r [= <- <-]. left. eauto. Qed.
Lemma cuts_err {A} e : cuts (fun _ => @Err cerr (A * bytes) e).
Proof. intros p s x r [=]. Qed.
Lemma cuts_if {A} (b : bool) (f g : reader cerr A) : cuts f -> cuts g -> cuts (fun bs => if b then f bs else g bs).
Proof. destruct b; auto. Qed.
Lemma cuts_take n : cuts (c_take n).
Proof.
  intros p s x r H. apply c_take_canon in H as [E Hn]. unfold c_take. destruct (take n p) as [[a r']|] eqn:T.
  - left. apply take_some in T as [-> T]. rewrite <- app_assoc in E. exists r'. apply app_inv_len in E as [-> E]; [|unfold blen in *; lia].
    subst. split; reflexivity.
  - right. reflexivity.
Qed.

Lemma cuts_u8 : cuts dec_u8.
Proof. intros [|b p] s x r H; cbn in *; [right; reflexivity|]. inv H. left. eauto. Qed.
Lemma cuts_le k : cuts (dec_le k).
Proof. apply cuts_bind; [apply cuts_take|]. intros a. apply cuts_ret. Qed.
Lemma cuts_varint : cuts dec_varint.
Proof.
  intros [|b p] s x r H; [right; reflexivity|]. unfold dec_varint in *. cbn [app] in H. cbv zeta in *.
  destruct (b2n b =? 255); [|destruct (b2n b =? 254); [|destruct (b2n b =? 253)]].
  4:{ inv H. left. eauto. }
  all: refine (cuts_bind _ _ (cuts_le _) _ p s x r H); intros a; apply cuts_if; [apply cuts_err|apply cuts_ret].
Qed.
Lemma cuts_bytes : cuts dec_bytes.
Proof. apply cuts_bind; [apply cuts_varint|]. intros n. apply cuts_take. Qed.
Lemma cuts_count {A} (dec : reader cerr A) : cuts dec -> forall f1 f2 n p s l r,
  dec_count dec f1 n (p ++ s) = Ok (l, r) ->
  (exists r', r = r' ++ s /\ dec_count dec f2 n p = Ok (l, r')) \/ dec_count dec f2 n p = Err CIo.
Proof.
  intros Hd. induction f1 as [|f1 IH]; intros f2 n p s l r H; cbn [dec_count] in H.
  - destruct (n =? 0) eqn:E; [|discriminate]. inv H. left. exists p. destruct f2; cbn [dec_count]; rewrite E; auto.
  - destruct (n =? 0) eqn:E.
    + inv H. left. exists p. destruct f2; cbn [dec_count]; rewrite E; auto.
    + destruct f2 as [|f2]; cbn [dec_count]; rewrite E; [right; reflexivity|].
      destruct (dec (p ++ s)) as [[a r1]| |] eqn:D; try discriminate. cbn [bind] in H.
      destruct (dec_count dec f1 (n - 1) r1) as [[l1 r2]| |] eqn:D1; try discriminate. cbn [bind] in H. inv H.
      destruct (Hd _ _ _ _ D) as [(r' & -> & D')|D']; rewrite D'; cbn [bind]; [|right; reflexivity].
      destruct (IH f2 _ _ _ _ _ D1) as [(r'' & -> & D2)|D2]; rewrite D2; cbn [bind]; [left; eauto|right; reflexivity].
Qed.
Lemma cuts_vec {A} (dec : reader cerr A) : cuts dec -> cuts (dec_vec dec).
Proof.
  intros Hd. apply cuts_bind; [apply cuts_varint|]. intros n p s x r H. cbn beta in *.
  exact (cuts_count dec Hd _ _ _ _ _ _ _ H).
Qed.
Lemma cuts_txout : cuts dec_txout.
Proof. apply cuts_bind; [apply cuts_le|]. intros v. apply cuts_bind; [apply cuts_bytes|]. intros s. apply cuts_ret. Qed.
Lemma cuts_txin : cuts dec_txin.
Proof.
  apply cuts_bind; [apply cuts_take|]. intros t. apply cuts_bind; [apply cuts_le|]. intros v.
  apply cuts_bind; [apply cuts_bytes|]. intros s. apply cuts_bind; [apply cuts_le|]. intros q. apply cuts_ret.
Qed.
Lemma cuts_wit_items n : forall used, cuts (dec_wit_items n used).
Proof.
  induction n as [|n IH]; intros used; [apply cuts_ret|]. cbn [dec_wit_items].
  apply cuts_bind; [apply cuts_varint|]. intros m. cbv zeta. apply cuts_if; [apply cuts_err|].
  apply cuts_bind; [apply cuts_take|]. intros e. apply cuts_bind; [apply IH|]. intros l. apply cuts_ret.
Qed.
Lemma cuts_witness : cuts dec_witness.
Proof.
  apply cuts_bind; [apply cuts_varint|]. intros n. apply cuts_if; [apply cuts_err|]. apply cuts_wit_items.
Qed.
Lemma cuts_witnesses l : cuts (dec_witnesses l).
Proof.
  induction l as [|i l IH]; [apply cuts_ret|]. cbn [dec_witnesses]. apply cuts_bind; [apply cuts_witness|]. intros w.
  apply cuts_bind; [apply IH|]. intros l'. apply cuts_ret.
Qed.
Lemma cuts_tx : cuts dec_tx.
Proof.
  apply cuts_bind; [apply cuts_le|]. intros v. apply cuts_bind; [apply cuts_vec, cuts_txin|]. intros [|i ins].
  - apply cuts_bind; [apply cuts_u8|]. intros f. apply cuts_if; [|apply cuts_err].
    apply cuts_bind; [apply cuts_vec, cuts_txin|]. intros ins. apply cuts_bind; [apply cuts_vec, cuts_txout|]. intros outs.
    apply cuts_bind; [apply cuts_witnesses|]. intros ins'. apply cuts_if; [apply cuts_err|].
    apply cuts_bind; [apply cuts_le|]. intros lt. apply cuts_ret.
  - apply cuts_bind; [apply cuts_vec, cuts_txout|]. intros outs. apply cuts_bind; [apply cuts_le|]. intros lt. apply cuts_ret.
Qed.

Lemma truncated {A} (dec : reader cerr A) bs p s x : cuts dec -> de_consensus dec bs = Ok x -> bs = p ++ s -> s <> [] ->
  de_consensus dec p = Err (SConsensusEncoding CIo).
Proof.
  intros Hd H -> Hs. apply map_err_ok in H. unfold c_deserialize in H. binds H. destruct b; [|discriminate].
  unfold de_consensus, c_deserialize. destruct (Hd _ _ _ _ Hx) as [(r' & E & _)|E].
  - destruct r'; [|discriminate]. cbn in E. congruence.
  - now rewrite E.
Qed.
Lemma padded {A} (wf : A -> Prop) enc (dec : reader cerr A) bs s x : rt wf enc dec -> canon wf enc dec ->
  de_consensus dec bs = Ok x -> s <> [] -> de_consensus dec (bs ++ s) = Err (SConsensusEncoding CParseFailed).
Proof.
  intros Hr Hc H Hs. apply map_err_ok in H. apply (c_deserialize_canon _ _ _ _ _ Hc) in H as [-> W].
  unfold de_consensus, c_deserialize. rewrite Hr by exact W. cbn [bind]. destruct s; [congruence|reflexivity].
Qed.

(** ** Numbers *)
Lemma dec_le_err k bs e : dec_le k bs = Err e <-> blen bs < k /\ e = CIo.
Proof.
  unfold dec_le, c_take. destruct (take k bs) as [[a r]|] eqn:T; cbn.
  - split; [discriminate|]. intros [H _]. apply take_some in T as [-> T]. rewrite blen_app in H. lia.
  - apply take_none in T. split; [intros [= <-]; auto|intros [_ ->]; reflexivity].
Qed.
Lemma int_err k bs e : de_consensus (dec_le (N.of_nat k)) bs = Err e <-> int_fails (N.of_nat k) bs e.
Proof.
  unfold de_consensus, c_deserialize, int_fails. rewrite map_err_err'. split.
  - intros (c & H & ->). apply bind_err' in H as [H|([n r] & H & H1)].
    + apply dec_le_err in H as [H ->]. auto.
    + apply dec_le_canon in H as [-> _]. destruct r; [discriminate|]. right. rewrite blen_app, blen_cons.
      unfold blen at 1. rewrite le_enc_length. split; [lia|congruence].
  - intros [[H ->]|[H ->]].
    + exists CIo. split; [|reflexivity]. apply bind_err'. left. now apply dec_le_err.
    + exists CParseFailed. split; [|reflexivity]. destruct (dec_le (N.of_nat k) bs) as [[n r]|c|] eqn:E.
      * apply dec_le_canon in E as [-> _]. rewrite blen_app in H. unfold blen at 1 in H. rewrite le_enc_length in H.
        cbn [bind]. destruct r; [unfold blen in H; cbn [length] in H; lia|reflexivity].
      * destruct (proj1 (dec_le_err _ _ _) E) as [E1 _]. exfalso. lia.
      * now apply dec_le_nopanic in E.
Qed.
Lemma int_ok k bs n : de_consensus (dec_le (N.of_nat k)) bs = Ok n <-> int_wire k n bs.
Proof.
  unfold de_consensus. split.
  - intros H. apply map_err_ok in H. apply (c_deserialize_canon _ _ _ _ _ (dec_le_canon k)) in H as [-> H]. now apply int_wire_iff.
  - intros H. apply int_wire_inv in H as [-> H]. rewrite (c_deserialize_rt _ _ _ _ (dec_le_rt k) H). reflexivity.
Qed.

(** ** Strings *)
Lemma le_value_bound v k : length v = k -> le_value v = le_dec v.
Proof. intros _. apply le_value_dec. Qed.
Lemma form_err f k m r c : In (f, k, m) size_forms ->
  ('(x, r') <- dec_le k r ;; if x <? m then Err CNonMinimalVarInt else Ok (x, r')) = Err c
  <-> (blen r < k /\ c = CIo) \/ (exists v r', r = v ++ r' /\ blen v = k /\ le_value v < m /\ c = CNonMinimalVarInt).
Proof.
  intros _. rewrite bind_err', dec_le_err. unfold dec_le. split.
  - intros [H|([x r'] & H & H1)]; [auto|]. right. destruct (c_take k r) as [[a r1]| |] eqn:Hx; try discriminate. cbn [bind] in H.
    apply c_take_canon in Hx as [-> Hk]. injection H as <- <-. exists a, r1. destruct (le_dec a <? m) eqn:E; [|discriminate]. rewrite le_value_dec.
    repeat split; [exact Hk|lia|congruence].
  - intros [H|(v & r' & -> & <- & Hv & ->)]; [auto|]. right. exists (le_dec v, r'). rewrite c_take_rt by reflexivity. cbn [bind].
    split; [reflexivity|]. rewrite le_value_dec in Hv. destruct (le_dec v <? m) eqn:E; [reflexivity|lia].
Qed.
Lemma varint_err bs c : dec_varint bs = Err c <-> size_fails bs c.
Proof.
  unfold size_fails. destruct bs as [|b r].
  { split; [intros [= <-]; auto|]. intros [[_ ->]|[(f & k & m & r & _ & [=] & _)|(f & k & m & v & r & _ & [=] & _)]]. reflexivity. }
  assert (G : dec_varint (b :: r) = Err c <-> exists k m, In (b, k, m) size_forms /\
    ('(x, r') <- dec_le k r ;; if x <? m then Err CNonMinimalVarInt else Ok (x, r')) = Err c).
  { unfold dec_varint. cbv zeta. unfold size_forms. split.
    - intros H. destruct (N.eqb_spec (b2n b) 255) as [e|_]; [|destruct (N.eqb_spec (b2n b) 254) as [e|_]; [|destruct (N.eqb_spec (b2n b) 253) as [e|_]; [|discriminate]]];
        [change 255 with (b2n xff) in e|change 254 with (b2n xfe) in e|change 253 with (b2n xfd) in e]; apply b2n_inj in e; subst b.
      + exists 8, (2 ^ 32). cbn [In]. auto.
      + exists 4, (2 ^ 16). cbn [In]. auto.
      + exists 2, 253. cbn [In]. auto.
    - intros (k & m & Hi & H). cbn [In] in Hi. destruct Hi as [[= <- <- <-]|[[= <- <- <-]|[[= <- <- <-]|[]]]]; exact H. }
  rewrite G. split.
  - intros (k & m & Hi & H). right. apply (form_err _ _ _ _ _ Hi) in H as [[H ->]|(v & r' & -> & H & Hm & ->)].
    + left. exists b, k, m, r. auto.
    + right. exists b, k, m, v, r'. auto 6.
  - intros [[[=] _]|[(f & k & m & r1 & Hi & [= <- <-] & H)|(f & k & m & v & r1 & Hi & [= <- ->] & H)]]; exists k, m; split; auto; apply (form_err _ _ _ _ _ Hi).
    + auto.
    + right. exists v, r1. tauto.
Qed.
Lemma take_err n bs c : c_take n bs = Err c <-> blen bs < n /\ c = CIo.
Proof.
  unfold c_take. rewrite <- take_none. destruct (take n bs); cbn; split; intros H.
  - discriminate.
  - destruct H; discriminate.
  - split; congruence.
  - destruct H; congruence.
Qed.
Lemma bytes_err bs c : dec_bytes bs = Err c <-> string_fails bs c.
Proof.
  unfold dec_bytes, string_fails. rewrite bind_err', varint_err. split; (intros [H|H]; [left; exact H|right]).
  - destruct H as ([n r] & H & H1). apply dec_varint_canon in H as [-> W]. apply take_err in H1 as [H1 ->].
    exists n, (enc_varint n), r. split; [|auto]. now apply size_wire.
  - destruct H as (n & l & r & S & -> & H & ->). apply size_wire in S as [W ->]. exists (n, r).
    split; [now apply dec_varint_rt|]. now apply take_err.
Qed.
Lemma txout_err bs e : de_txout bs = Err e <-> txout_fails bs e.
Proof.
  unfold de_txout, de_consensus, txout_fails. rewrite map_err_err'. split.
  - intros (c & H & ->). unfold c_deserialize in H. apply bind_err' in H as [H|([o r] & H & H1)].
    + unfold dec_txout in H. apply bind_err' in H as [H|([v r] & H & H1)].
      * apply dec_le_err in H as [H ->]. left. auto.
      * apply bind_err' in H1 as [H1|([s r1] & _ & [=])]. right. left. apply dec_u64_canon in H as [-> _].
        exists (enc_u64 v), r, c. split; [reflexivity|]. split; [unfold blen; now rewrite enc_u64_length|].
        split; [now apply bytes_err|reflexivity].
    + right. right. destruct r as [|b r]; [discriminate|]. apply dec_txout_canon in H as [-> W]. exists o, (enc_txout o), (b :: r).
      split; [now apply txout_wire_iff|]. split; [reflexivity|]. split; [discriminate|congruence].
  - intros [[H ->]|[(v & r & c & -> & Hv & H & ->)|(o & b & t & H & -> & Ht & ->)]].
    + exists CIo. split; [|reflexivity]. unfold c_deserialize. apply bind_err'. left. unfold dec_txout. apply bind_err'. left. now apply dec_le_err.
    + exists c. split; [|reflexivity]. unfold c_deserialize. apply bind_err'. left. unfold dec_txout. apply bind_err'. right.
      exists (le_dec v, r). split.
      * unfold dec_u64, dec_le. rewrite c_take_rt by exact Hv. reflexivity.
      * apply bind_err'. left. now apply bytes_err.
    + exists CParseFailed. split; [|reflexivity]. apply txout_wire_iff in H as [W ->]. unfold c_deserialize.
      rewrite dec_txout_rt by exact W. cbn [bind]. destruct t; [congruence|reflexivity].
Qed.

Section Facts.
Context `{X : Ext}.

(** ** Keys *)
Lemma pubkey_err bs e : de_pubkey bs = Err e <-> pubkey_fails bs e.
Proof.
  unfold de_pubkey, pubkey_fails.
  assert (G : forall r : option bytes, forall c : bool,
    match r with Some k => Ok (PubKey c k) | None => Err SInvalidPublicKey end = Err e <-> e = SInvalidPublicKey /\ r = None).
  { intros [k|] c; split; intros H; [discriminate|destruct H; discriminate|split; congruence|destruct H; congruence]. }
  destruct (N.eqb_spec (blen bs) 33) as [E|E].
  - rewrite G. tauto.
  - destruct (N.eqb_spec (blen bs) 65) as [F|F]; cbn [andb].
    + destruct bs as [|b r]; [discriminate F|]. cbn [hd]. destruct (beq b x04) eqn:B.
      * apply beq_eq in B. subst b. rewrite G. intuition eauto.
      * split; [intros [= <-]; split; auto; intros [H|[_ [r' [= -> ->]]]]; [congruence|rewrite beq_refl in B; discriminate]|intros [-> _]; reflexivity].
    + split; [intros [= <-]; split; auto; intros [H|[H _]]; congruence|intros [-> _]; reflexivity].
Qed.
Lemma secp_err bs e : de_secp bs = Err e <-> secp_fails bs e.
Proof.
  unfold de_secp, secp_fails. destruct (secp_parse bs); cbn; split; intros H; [discriminate|destruct H; discriminate|split; congruence|destruct H; congruence].
Qed.
Lemma xonly_err bs e : de_xonly bs = Err e <-> xonly_fails bs e.
Proof.
  unfold de_xonly, xonly_fails. destruct (N.eqb_spec (blen bs) 32) as [E|E]; cbn [andb].
  - destruct (xonly_ok bs); split; intros H; [discriminate|destruct H as [_ H]; specialize (H E); discriminate|split; congruence|destruct H; congruence].
  - split; intros H; [split; congruence|destruct H; congruence].
Qed.
Lemma hash_err n bs e : de_hash n bs = Err e <-> blen bs <> n /\ e = SInvalidHash.
Proof.
  unfold de_hash. destruct (N.eqb_spec (blen bs) n) as [E|E]; split; intros H; [discriminate|destruct H; congruence|split; congruence|destruct H; congruence].
Qed.

(** ** Signatures *)
Lemma std_byte b : ecdsa_sighash_std (b2n b) = true <-> In b ecdsa_types.
Proof.
  unfold ecdsa_types. split.
  - destruct b; intros H; try discriminate H; cbn [In]; tauto.
  - intros H. cbn [In] in H. repeat (destruct H as [<-|H]; [reflexivity|]). destruct H.
Qed.
Lemma tap_std_byte b : tap_sighash_std (b2n b) = true <-> In b (x00 :: ecdsa_types).
Proof.
  unfold tap_sighash_std. rewrite orb_true_iff, std_byte, N.eqb_eq. cbn [In]. change 0 with (b2n x00).
  split; (intros [H|H]; [left|right; exact H]); [symmetry; now apply b2n_inj|now subst].
Qed.
Lemma snoc (bs : bytes) : bs <> [] -> exists s b, bs = s ++ [b].
Proof. intros H. exists (removelast bs), (last bs x00). now apply app_removelast_last. Qed.
Lemma last_snoc (s : bytes) b d : last (s ++ [b]) d = b.
Proof. apply last_last. Qed.
Lemma esig_snoc s b : de_esig (s ++ [b]) =
  if negb (ecdsa_sighash_std (b2n b)) then Err (SNonStandardSighashType (b2n b))
  else match der_parse s with Some d => Ok (ESig d (b2n b)) | None => Err SInvalidEcdsaSignature end.
Proof.
  unfold de_esig. rewrite (last_last s b x00), (List.removelast_last s b). destruct (s ++ [b]) eqn:E; [destruct s; discriminate|reflexivity].
Qed.
Lemma esig_err bs e : de_esig bs = Err e <-> esig_fails bs e.
Proof.
  unfold esig_fails. split.
  - intros H. destruct bs as [|x r] eqn:E; [left; split; [reflexivity|cbn in H; congruence]|]. rewrite <- E in *.
    destruct (snoc bs) as (s & b & ->); [congruence|]. rewrite esig_snoc in H. right.
    destruct (ecdsa_sighash_std (b2n b)) eqn:S; cbn [negb] in H.
    + right. exists s, b. apply std_byte in S. destruct (der_parse s); [discriminate|]. repeat split; auto. congruence.
    + left. exists s, b. split; [reflexivity|]. split; [|congruence]. intros I. apply std_byte in I. congruence.
  - intros [[-> ->]|[(s & b & -> & N & ->)|(s & b & -> & I & D & ->)]]; [reflexivity| |]; rewrite esig_snoc.
    + destruct (ecdsa_sighash_std (b2n b)) eqn:S; [|reflexivity]. apply std_byte in S. tauto.
    + apply std_byte in I. now rewrite I, D.
Qed.
Lemma tsig_err bs e : de_tsig bs = Err e <-> tsig_fails bs e.
Proof.
  unfold de_tsig, tsig_fails. destruct (N.eqb_spec (blen bs) 64) as [E|E].
  { split; [discriminate|]. intros [[H _]|(s & b & -> & H & _)]; [congruence|]. rewrite blen_app in E. change (blen [b]) with 1 in E. lia. }
  destruct (N.eqb_spec (blen bs) 65) as [F|F].
  - destruct (snoc bs) as (s & b & ->); [intros ->; discriminate F|]. rewrite (last_last s b x00). cbv zeta.
    rewrite blen_app in F. change (blen [b]) with 1 in F. destruct (tap_sighash_std (b2n b)) eqn:S.
    + split; [discriminate|]. intros [(_ & H & _)|(s' & b' & H & _ & N & _)]; [exfalso; apply H; rewrite blen_app; change (blen [b]) with 1; lia|].
      apply app_inj_tail in H as [-> ->]. apply tap_std_byte in S. tauto.
    + split.
      * intros H. right. exists s, b. split; [reflexivity|]. split; [lia|]. split; [|congruence]. intros I. apply tap_std_byte in I. congruence.
      * intros [(_ & H & _)|(s' & b' & H & _ & _ & ->)]; [exfalso; apply H; rewrite blen_app; change (blen [b]) with 1; lia|].
        apply app_inj_tail in H as [-> ->]. reflexivity.
  - split; [intros H; left; repeat split; auto; congruence|]. intros [(_ & _ & ->)|(s & b & -> & H & _)]; [reflexivity|].
    rewrite blen_app in F. change (blen [b]) with 1 in F. lia.
Qed.

(** ** Key sources *)
Lemma path_err fuel : forall bs e, (length bs <= fuel)%nat ->
  de_path fuel bs = Err e <-> blen bs mod 4 <> 0 /\ e = SConsensusEncoding CIo.
Proof.
  induction fuel as [|f IH]; intros bs e Hl.
  - destruct bs; [|cbn in Hl; lia]. cbn [de_path]. split; [discriminate|]. intros [H _]. now destruct H.
  - destruct bs as [|b r]; [cbn [de_path]; split; [discriminate|]; intros [H _]; now destruct H|].
    cbn [de_path]. rewrite bind_err', map_err_err'. split.
    + intros [(c & H & ->)|([n r'] & H & H1)].
      * apply dec_le_err in H as [H ->]. split; [|reflexivity]. rewrite blen_cons in *. lia.
      * apply map_err_ok in H. apply dec_u32_canon in H as [E _]. rewrite E. rewrite E in Hl.
        apply bind_err' in H1 as [H1|(l & _ & [=])]. rewrite app_length, enc_u32_length in Hl.
        apply IH in H1 as [H1 ->]; [|lia]. split; [|reflexivity]. rewrite blen_app. unfold blen at 1. rewrite enc_u32_length. lia.
    + intros [H ->]. destruct (dec_u32 (b :: r)) as [[n r']|c|] eqn:D.
      * right. exists (n, r'). split; [reflexivity|]. apply bind_err'. left. apply dec_u32_canon in D as [E _]. rewrite E in *.
        rewrite app_length, enc_u32_length in Hl. apply IH; [lia|]. split; [|reflexivity].
        rewrite blen_app in H. unfold blen at 1 in H. rewrite enc_u32_length in H. lia.
      * left. exists c. split; [reflexivity|]. destruct (proj1 (dec_le_err _ _ _) D) as [_ ->]. reflexivity.
      * now apply dec_u32_nopanic in D.
Qed.
Lemma source_err bs e : de_keysource bs = Err e <-> source_fails bs e.
Proof.
  unfold de_keysource, source_fails. destruct (blen bs <? 4) eqn:E.
  - split; [intros [= <-]; left; split; [lia|reflexivity]|]. intros [[_ ->]|[H _]]; [reflexivity|lia].
  - assert (L : blen (skipn 4 bs) = blen bs - 4) by (unfold blen in *; rewrite skipn_length; lia).
    rewrite bind_err', path_err by (rewrite skipn_length; lia). rewrite L. split.
    + intros [[H ->]|(p & _ & [=])]. right. split; [|split; [|reflexivity]]; lia.
    + intros [[H _]|(H & H1 & ->)]; [lia|]. left. split; [lia|reflexivity].
Qed.
Lemma hashes_err bs c : dec_vec (c_take 32) bs = Err c <->
  size_fails bs c \/ (exists n l r, compact_size n l /\ bs = l ++ r /\ blen r < 32 * n /\ c = CIo).
Proof.
  assert (G : forall fuel n r c, (length r < fuel)%nat -> dec_count (c_take 32) fuel n r = Err c <-> blen r < 32 * n /\ c = CIo).
  { induction fuel as [|f IH]; intros n r c0 Hl; [lia|]. cbn [dec_count]. destruct (N.eqb_spec n 0) as [->|Hn].
    - split; [discriminate|]. intros [H _]. lia.
    - rewrite bind_err', take_err. split.
      + intros [[H ->]|([a r'] & H & H1)]; [split; [lia|reflexivity]|]. apply c_take_canon in H as [-> Ha].
        rewrite app_length in Hl. unfold blen in Ha.
        apply bind_err' in H1 as [H1|([l q] & _ & [=])]. apply IH in H1 as [H1 ->]; [|lia]. split; [|reflexivity]. rewrite blen_app. unfold blen in *. lia.
      + intros [H ->]. destruct (c_take 32 r) as [[a r']|c1|] eqn:D.
        * right. exists (a, r'). split; [reflexivity|]. apply bind_err'. left. apply c_take_canon in D as [-> Ha].
          rewrite app_length in Hl. unfold blen in Ha. apply IH; [lia|]. split; [|reflexivity]. rewrite blen_app in H. unfold blen in *. lia.
        * left. destruct (proj1 (take_err _ _ _) D) as [D1 _]. auto.
        * now apply c_take_nopanic in D. }
  unfold dec_vec. rewrite bind_err', varint_err. split; (intros [H|H]; [left; exact H|right]).
  - destruct H as ([n r] & H & H1). apply G in H1 as [H1 ->]; [|lia]. apply dec_varint_canon in H as [-> W].
    exists n, (enc_varint n), r. split; [now apply size_wire|auto].
  - destruct H as (n & l & r & S & -> & H & ->). apply size_wire in S as [W ->]. exists (n, r). split; [now apply dec_varint_rt|].
    apply G; [lia|auto].
Qed.
Lemma hashes_ok n bs l r : dec_vec (c_take 32) bs = Ok (l, r) -> blen l = n ->
  exists h, bs = enc_varint n ++ h ++ r /\ n < U64 /\ blen h = 32 * n.
Proof.
  intros H <-. apply (dec_vec_canon _ _ _ (c_take_canon 32)) in H as [-> [W F]]. exists (concat l).
  split; [|split; [exact W|]].
  - unfold enc_vec, enc_all. rewrite map_id, <- app_assoc. reflexivity.
  - induction F as [|h l Hh F IH]; [reflexivity|]. cbn [concat]. rewrite blen_app, blen_cons, Hh, IH; [lia|].
    unfold wf_vec in *. rewrite blen_cons in W. lia.
Qed.
Lemma origin_err bs e : de_taporigin bs = Err e <-> origin_fails bs e.
Proof.
  unfold de_taporigin, origin_fails. rewrite bind_err', map_err_err'. split.
  - intros [(c & H & ->)|([l r] & H & H1)].
    + apply hashes_err in H as [H|(n & l & r & S & -> & H & ->)]; [left; eauto|right; left; eauto 7].
    + apply map_err_ok in H. apply bind_err' in H1 as [H1|(k & _ & [=])]. apply source_err in H1.
      destruct (hashes_ok _ _ _ _ H eq_refl) as (h & -> & W & Hh). right. right. exists (blen l), (enc_varint (blen l)), h, r.
      split; [now apply size_wire|auto].
  - intros [(c & H & ->)|[(n & l & r & S & -> & H & ->)|(n & l & h & r & S & -> & H & F)]].
    + left. exists c. split; [|reflexivity]. apply hashes_err. auto.
    + left. exists CIo. split; [|reflexivity]. apply hashes_err. right. eauto 7.
    + right. destruct (dec_vec (c_take 32) (l ++ h ++ r)) as [[ls r']|c|] eqn:D.
      * destruct (hashes_ok _ _ _ _ D eq_refl) as (h' & E & W & Hh). apply size_wire in S as [Wn ->].
        assert (D1 : dec_varint (enc_varint n ++ h ++ r) = Ok (n, h ++ r)) by now apply dec_varint_rt.
        rewrite E, dec_varint_rt in D1 by exact W. injection D1 as E1 E2.
        apply app_inv_len in E2 as [-> ->]; [|unfold blen in *; lia].
        exists (ls, r). split; [reflexivity|]. apply bind_err'. left. now apply source_err.
      * exfalso. apply hashes_err in D as [D|(n' & l' & r' & S' & E & D & _)].
        -- apply varint_err in D. apply size_wire in S as [Wn ->]. rewrite dec_varint_rt in D by exact Wn. discriminate.
        -- apply size_wire in S as [Wn ->]. apply size_wire in S' as [Wn' ->].
           assert (D1 : dec_varint (enc_varint n ++ h ++ r) = Ok (n, h ++ r)) by now apply dec_varint_rt.
           rewrite E, dec_varint_rt in D1 by exact Wn'. injection D1 as -> ->. rewrite blen_app in D. lia.
      * now apply (dec_vec_nopanic _ (c_take_nopanic 32)) in D.
Qed.

(** ** Taproot *)
Lemma version_ok_byte b : leaf_version_ok (b2n b) = true <-> version_byte b.
Proof.
  unfold leaf_version_ok, version_byte. rewrite andb_true_iff, negb_true_iff, N.eqb_eq, N.eqb_neq. change 80 with (b2n x50).
  split; intros [H1 H2]; (split; [exact H1|]); intros H; apply H2; [now subst|now apply b2n_inj].
Qed.
Lemma leafscript_err bs e : de_leafscript bs = Err e <-> leafscript_fails bs e.
Proof.
  assert (S : forall s b, de_leafscript (s ++ [b]) = if leaf_version_ok (b2n b) then Ok (s, b2n b) else Err SInvalidLeafVersion).
  { intros s b. unfold de_leafscript. rewrite (last_last s b x00), (List.removelast_last s b). destruct (s ++ [b]) eqn:E; [destruct s; discriminate|reflexivity]. }
  unfold leafscript_fails. split.
  - intros H. destruct bs as [|x r] eqn:E; [left; split; [reflexivity|cbn in H; congruence]|]. rewrite <- E in *.
    destruct (snoc bs) as (s & b & ->); [congruence|]. rewrite S in H. right. exists s, b. split; [reflexivity|].
    rewrite <- version_ok_byte. destruct (leaf_version_ok (b2n b)); [discriminate|]. split; [discriminate|congruence].
  - intros [[-> ->]|(s & b & -> & N & ->)]; [reflexivity|]. rewrite S. rewrite <- version_ok_byte in N.
    destruct (leaf_version_ok (b2n b)); [exfalso; now apply N|reflexivity].
Qed.
Lemma split_at (n : nat) (bs : bytes) : N.of_nat n <= blen bs -> exists a b, bs = a ++ b /\ length a = n.
Proof.
  intros H. exists (firstn n bs), (skipn n bs). split; [now rewrite firstn_skipn|]. unfold blen in H. rewrite firstn_length. lia.
Qed.
Lemma firstn_len (a b : bytes) n : length a = n -> firstn n (a ++ b) = a.
Proof. intros <-. now rewrite firstn_app, Nat.sub_diag, firstn_all, firstn_O, app_nil_r. Qed.
Lemma skipn_len (a b : bytes) n : length a = n -> skipn n (a ++ b) = b.
Proof. intros <-. now rewrite skipn_app, Nat.sub_diag, skipn_all. Qed.
Lemma xleaf_err bs e : de_xleaf bs = Err e <-> xleaf_fails bs e.
Proof.
  unfold de_xleaf, xleaf_fails. destruct (blen bs <? 32) eqn:E.
  - split.
    + intros [= <-]. left. split; [lia|reflexivity].
    + intros [[_ ->]|[(k & h & -> & H & _)|(k & h & -> & H & _)]]; [reflexivity| |]; rewrite blen_app in E; lia.
  - destruct (split_at 32 bs) as (k & h & -> & Hk); [lia|]. rewrite (firstn_len _ _ _ Hk), (skipn_len _ _ _ Hk).
    assert (Hk' : blen k = 32) by (unfold blen; lia).
    assert (U : forall k' h', k ++ h = k' ++ h' -> blen k' = 32 -> k = k' /\ h = h').
    { intros k' h' Q Q'. apply app_inv_len in Q; [exact Q|]. unfold blen in *. lia. }
    rewrite bind_err', xonly_err. unfold xonly_fails. split.
    + intros [[-> H]|(a & H & H1)].
      * right. left. exists k, h. specialize (H Hk'). auto.
      * unfold de_xonly in H. destruct ((blen k =? 32) && xonly_ok k) eqn:O; [|discriminate]. inv H.
        apply andb_true_iff in O as [_ O].
        apply bind_err' in H1 as [H1|(b & _ & [=])]. apply hash_err in H1 as [H1 ->]. right. right. exists a, h. auto 6.
    + intros [[H _]|[(k' & h' & Q & H & O & ->)|(k' & h' & Q & H & O & Hh & ->)]]; [lia| |]; destruct (U _ _ Q H); subst k' h'.
      * left. auto.
      * right. exists k. unfold de_xonly. rewrite H, O. cbn [N.eqb Pos.eqb andb]. split; [reflexivity|]. apply bind_err'. left. now apply hash_err.
Qed.
Lemma hashes_split n : forall bs : bytes, blen bs = 32 * N.of_nat n -> exists hs, bs = concat hs /\ Forall (fun h => blen h = 32) hs /\ blen hs = N.of_nat n.
Proof.
  induction n as [|n IH]; intros bs H.
  - exists []. destruct bs; [auto|]. rewrite blen_cons in H. lia.
  - destruct (split_at 32 bs) as (h & r & -> & Hh); [lia|]. assert (Hh' : blen h = 32) by (unfold blen; lia).
    rewrite blen_app in H. destruct (IH r) as (hs & -> & F & L); [lia|]. exists (h :: hs). cbn [concat].
    split; [reflexivity|]. split; [constructor; auto|]. rewrite blen_cons. lia.
Qed.
Lemma hashes_len (hs : list bytes) : Forall (fun h => blen h = 32) hs -> blen (concat hs) = 32 * blen hs.
Proof.
  induction 1 as [|h hs H F IH]; [reflexivity|]. cbn [concat]. rewrite blen_app, blen_cons, H, IH. lia.
Qed.
Lemma controlblock_iff bs : is_controlblock bs <-> exists c, de_controlblock bs = Ok c.
Proof.
  unfold is_controlblock, de_controlblock. split.
  - intros (b & k & hs & -> & V & Hk & O & F & N). pose proof (hashes_len _ F) as L.
    assert (B : blen (b :: k ++ concat hs) = 33 + 32 * blen hs) by (rewrite blen_cons, blen_app, Hk, L; unfold bytes in *; lia).
    rewrite B. replace (33 + 32 * blen hs - 33) with (32 * blen hs) by lia.
    destruct (33 + 32 * blen hs <? 33) eqn:E1; [lia|].
    replace (32 * blen hs mod 32) with 0 by lia. cbn [orb negb N.eqb]. cbv zeta.
    assert (V' : leaf_version_ok (b2n b - b2n b mod 2) = true).
    { unfold leaf_version_ok. apply andb_true_iff. split; [apply N.eqb_eq; lia|]. apply negb_true_iff, N.eqb_neq. exact V. }
    assert (Hk' : length k = 32%nat) by (unfold blen in Hk; lia).
    rewrite V', (firstn_len _ _ _ Hk'), O. cbn [negb]. destruct (128 * 32 <? 32 * blen hs) eqn:E2; [lia|]. eauto.
  - intros (c & H). destruct bs as [|b r]; [discriminate|].
    destruct ((blen (b :: r) <? 33) || negb ((blen (b :: r) - 33) mod 32 =? 0)) eqn:E; [discriminate|]. cbv zeta in H.
    destruct (leaf_version_ok (b2n b - b2n b mod 2)) eqn:V; cbn [negb] in H; [|discriminate].
    destruct (xonly_ok (firstn 32 r)) eqn:O; cbn [negb] in H; [|discriminate].
    destruct (128 * 32 <? blen (b :: r) - 33) eqn:L; [discriminate|].
    apply orb_false_iff in E as [E1 E2]. apply negb_false_iff, N.eqb_eq in E2. rewrite blen_cons in *.
    destruct (split_at 32 r) as (k & q & -> & Hk); [lia|]. rewrite (firstn_len _ _ _ Hk) in O.
    assert (Hk' : blen k = 32) by (unfold blen; lia). rewrite blen_app, Hk' in *.
    destruct (hashes_split (N.to_nat (blen q / 32)) q) as (hs & -> & F & N); [lia|].
    exists b, k, hs. split; [reflexivity|]. split.
    { unfold leaf_version_ok in V. apply andb_true_iff in V as [_ V]. apply negb_true_iff, N.eqb_neq in V. exact V. }
    repeat split; auto. lia.
Qed.
Lemma controlblock_err bs e : de_controlblock bs = Err e <-> controlblock_fails bs e.
Proof.
  unfold controlblock_fails. rewrite controlblock_iff. split.
  - intros H. split; [|intros [c G]; congruence]. unfold de_controlblock in H. destruct bs as [|b r]; [congruence|]. cbv zeta in H.
    repeat match type of H with (if ?x then _ else _) = _ => destruct x; [congruence|] end. discriminate.
  - intros [-> N]. destruct (de_controlblock bs) as [c|e|] eqn:D.
    + exfalso. eauto.
    + unfold de_controlblock in D. destruct bs as [|b r]; [symmetry; exact D|]. cbv zeta in D.
      repeat match type of D with (if ?x then _ else _) = _ => destruct x; [symmetry; exact D|] end. discriminate.
    + exfalso. unfold de_controlblock in D. destruct bs as [|b r]; [discriminate|]. cbv zeta in D.
      repeat match type of D with (if ?x then _ else _) = _ => destruct x; [discriminate|] end. discriminate.
Qed.

(** ** Trees *)
Lemma after_enc ls bs r : Forall wf_leaf ls -> bs = enc_all enc_leaf ls ++ r -> after ls bs r.
Proof.
  intros F ->. exists (map enc_leaf ls). split.
  - eapply Forall_impl; [|exact F]. intros l. apply leaf_allowed_iff.
  - split; [|reflexivity]. induction F as [|l ls [_ [_ [_ H]]] F IH]; constructor; [now apply leaf_wire_iff|exact IH].
Qed.
Lemma insert_none ls l : insert_leaves (ls ++ [l]) [] = None -> ~ starts_tree (ls ++ [l]).
Proof.
  intros H (t & more & A & E). rewrite leaves_dfs in E. apply allowed_wf in A as [_ A]. destruct (node_of_ok _ A) as [n N].
  apply insert_tree in N. rewrite E, insert_leaves_app, H in N. discriminate.
Qed.
Lemma loop_err fuel : forall ls br bs e, Forall wf_leaf ls -> insert_leaves ls [] = Some br -> (length bs < fuel)%nat ->
  de_taptree_loop fuel br bs = Err e -> taptree_fails (enc_all enc_leaf ls ++ bs) e.
Proof.
  induction fuel as [|f IH]; intros ls br bs e F I Hl H; [lia|]. destruct bs as [|d r1]; cbn [de_taptree_loop] in H; [discriminate|].
  destruct r1 as [|v r2].
  { exists ls, [d]. split; [now apply after_enc|]. right. left. split; [eauto|congruence]. }
  apply bind_err' in H as [H|([s r3] & H & H1)].
  { apply map_err_err' in H as (c & H & ->). apply bytes_err in H. exists ls, (d :: v :: r2). split; [now apply after_enc|].
    right. right. left. exists d, v, r2, c. auto. }
  apply map_err_ok in H. apply dec_bytes_canon in H as [-> W].
  destruct (leaf_version_ok (b2n v)) eqn:V; cbn [negb] in H1.
  2:{ exists ls, (d :: v :: enc_bytes s ++ r3). split; [now apply after_enc|]. right. right. right. left.
      exists d, v, (enc_bytes s ++ r3). split; [reflexivity|]. rewrite <- version_ok_byte. split; congruence. }
  set (l := (N.to_nat (b2n d), b2n v, s)).
  destruct (tb_insert (N.to_nat (b2n d)) br (leaf_node s (b2n v))) as [br'|] eqn:T.
  - assert (E : enc_all enc_leaf ls ++ d :: v :: enc_bytes s ++ r3 = enc_all enc_leaf (ls ++ [l]) ++ r3).
    { unfold enc_all. rewrite map_app, concat_app. cbn [map concat]. unfold enc_leaf at 3. unfold l. cbn [fst snd].
      rewrite N2Nat.id, !n2b_b2n, app_nil_r, <- app_assoc. reflexivity. }
    rewrite E. apply (IH _ br').
    + apply Forall_app. split; [exact F|]. constructor; [|constructor]. unfold wf_leaf, l, MAX_NODE_COUNT. cbn [fst snd].
      unfold tb_insert in T. destruct (Nat.ltb_spec MAX_NODE_COUNT (N.to_nat (b2n d))) as [?|Hd]; [discriminate|].
      unfold MAX_NODE_COUNT in Hd. repeat split; auto. apply b2n_lt.
    + rewrite insert_leaves_app, I. unfold l. cbn [insert_leaves]. now rewrite T.
    + cbn [length] in Hl. rewrite app_length in Hl. lia.
    + exact H1.
  - exists ls, (d :: v :: enc_bytes s ++ r3). split; [now apply after_enc|]. right. right. right. right.
    exists d, v, s, (enc_bytes s), r3. split; [reflexivity|]. split; [now apply string_wire_iff|]. split; [now apply version_ok_byte|].
    split; [|congruence]. apply insert_none. rewrite insert_leaves_app, I. cbn [insert_leaves]. now rewrite T.
Qed.
Lemma taptree_err bs e : de_taptree bs = Err e -> taptree_fails bs e.
Proof.
  intros H. unfold de_taptree in H. apply bind_err' in H as [H|(br & H & H1)].
  - exact (loop_err _ [] [] bs e (Forall_nil _) eq_refl (Nat.lt_succ_diag_r _) H).
  - destruct (de_loop_holds _ _ _ [] _ ltac:(constructor) H) as (fs & ls & A & B & F & ->). exists ls, [].
    split; [apply after_enc; [exact F|now rewrite app_nil_r]|]. left. split; [reflexivity|].
    unfold tb_finish in H1. split.
    + intros t E. rewrite leaves_dfs in E.
      assert (Al : tree_allowed t).
      { unfold tree_allowed. rewrite leaves_dfs, E. eapply Forall_impl; [|exact F]. intros l. apply leaf_allowed_iff. }
      apply allowed_wf in Al as [_ Hh]. destruct (node_of_ok _ Hh) as [n N]. apply insert_tree in N. rewrite E in N.
      rewrite de_loop_leaves in H by (exact F || lia). rewrite N in H. inv H. discriminate.
    + destruct br as [|[n|] [|y br]]; congruence.
Qed.

End Facts.

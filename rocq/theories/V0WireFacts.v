(** Whole v0 PSBTs on the wire. *)
From Coq Require Import Permutation.
From Verif Require Import Base OMap Consensus ConsensusFacts Ext Raw RawFacts TapTree TapTreeFacts
  Serialize SerializeFacts MapCodec MapFacts V2Global V2GlobalFacts V2Psbt SpecCodec SpecCodecFacts SpecPsbt
  V2PsbtFacts V2CodecFacts V2WireFacts V2PairFacts
  V0Error V0Input V0Output V0Psbt V0OutputFacts V0InputFacts V0GlobalFacts SpecPsbt0 V0PsbtFacts.
Local Open Scope N_scope.

(** ** Canonical fields keep the pairs they are given *)

Lemma opt_fraw {A} t (ser : A -> bytes) de : canonical ser de -> fraw (eq t) (ins_opt de) (opt_pairs t ser).
Proof.
  intros Hc p a a' Ht H. unfold ins_opt in H. destruct (is_empty _) eqn:E; [|discriminate].
  destruct a; cbn [is_none] in H; [discriminate|]. binds H. apply map_err_ok in Hx. apply Hc in Hx. inj H.
  cbn [opt_pairs]. apply is_empty_nil in E. unfold ptype in *. destruct p as [[kt kd] v]. cbn in *. subst. auto.
Qed.
Lemma map_fraw {K V} t (sk : K -> list N) (serk : K -> bytes) dek (serv : V -> bytes) dev :
  canonical serk dek -> canonical serv dev -> fraw (eq t) (ins_map sk dek dev) (map_pairs t serk serv).
Proof.
  intros Hk Hv p m m' Ht H. apply ins_map_inv in H as (k & v & H1 & H2 & H3 & ->).
  unfold m_mem in H3. destruct (m_get sk k m) eqn:Eg; [discriminate|].
  unfold map_pairs. rewrite (Permutation_map _ (m_put_permutation sk k v m Eg)). cbn [map fst snd].
  apply Hk in H1. apply Hv in H2. unfold ptype in *. destruct p as [[kt kd] w]. cbn in *. subst. auto.
Qed.

Lemma flat_map_change {F A} (h h' : F -> list A) f p order :
  NoDup order -> In f order -> (forall g, f <> g -> h' g = h g) -> Permutation (h' f) (p :: h f) ->
  Permutation (flat_map h' order) (p :: flat_map h order).
Proof.
  intros Hn Hin He Hp. induction order as [|g order IH]; [destruct Hin|]. inv Hn. cbn [flat_map].
  destruct Hin as [->|Hin].
  - rewrite Hp. cbn [app]. constructor. apply Permutation_app_head.
    enough (flat_map h' order = flat_map h order) as -> by reflexivity.
    clear -He H1. induction order as [|g order IH]; [reflexivity|]. cbn [flat_map]. rewrite IH.
    + f_equal. apply He. intros ->. apply H1. now left.
    + intros Q. apply H1. now right.
  - assert (f <> g) by (intros ->; tauto). rewrite He by assumption. rewrite IH by assumption.
    symmetry. apply Permutation_middle.
Qed.

Section Frame.
Context {S F : Type} {fty : F -> Type} {get : forall f, S -> fty f} {set : forall f, fty f -> S -> S}
  {upd : forall f, pair -> fty f -> res ierr (fty f)} {slot : byte -> F} {ins : pair -> S -> res ierr S}
  {pairs : forall f, fty f -> list pair} {order : list F}.
Hypothesis O : frame_ok fty get set upd slot ins.
Hypothesis R : forall f, fraw (fun t => slot t = f) (upd f) (pairs f).
Hypothesis Ond : NoDup order.
Hypothesis Oall : forall f, In f order.

Lemma frame_perm l : forall s s', ins_all ins l s = Ok s' ->
  Permutation (spairs fty get pairs order s') (l ++ spairs fty get pairs order s).
Proof.
  induction l as [|p l IH]; intros s s' H; cbn [ins_all] in H.
  - inj H. reflexivity.
  - binds H. rewrite (IH _ _ H). clear IH H. rewrite (fo_ins _ _ _ _ _ _ O) in Hx. binds Hx. inj Hx.
    cbn [app]. rewrite Permutation_middle. apply Permutation_app_head. unfold spairs.
    apply (flat_map_change _ _ (slot (ptype p))); auto.
    + intros g Hg. f_equal. now rewrite (fo_other _ _ _ _ _ _ O).
    + rewrite (fo_same _ _ _ _ _ _ O). now apply (R _ p (get _ s)).
Qed.
End Frame.

Section Facts.
Context `{X : Ext} {L : ExtLaws X}.

(** ** Sizes *)
Lemma g0raw f : fraw (fun t => g0slot t = f) (g0upd f) (g0fpairs f).
Proof.
  destruct f.
  - apply (fraw_types (eq x00)); [intros t; apply g0slot_G0Tx|]. cbn [g0upd g0fpairs g0ty].
    apply (fraw_equiv _ (ins_opt de_unsigned_tx)); [intros p a a' _; apply g0ins_tx_equiv|].
    apply opt_fraw. intros b a H. now apply de_unsigned_tx_inv in H.
  - apply (fraw_types (eq x01)); [intros t; apply g0slot_G0Xpub|]. cbn [g0upd g0fpairs g0ty].
    apply (fraw_equiv _ (ins_map sk_xpub dek_xpub de_keysource)); [intros p a a' _; apply g0ins_xpub_equiv|].
    apply map_fraw; [|apply keysource_canonical]. intros b a H. unfold dek_xpub in H. apply ok_or_ok in H.
    now apply de_xpub_wf in H.
  - apply (fraw_types (eq xfb)); [intros t; apply g0slot_G0Version|]. cbn [g0upd g0fpairs g0ty].
    apply (fraw_equiv _ (ins_opt de_g0version)); [intros p a a' _; apply g0ins_version_equiv|].
    apply opt_fraw. intros b a H. unfold de_g0version in H. binds H. destruct (x =? 0); [|discriminate]. inj H.
    now apply u32_canonical.
  - exact g0raw_G0Proprietary.
  - exact g0raw_G0Unknown.
Qed.

Lemma enc_all_perm {A} (f : A -> bytes) l l' : Permutation l l' -> blen (enc_all f l) = blen (enc_all f l').
Proof.
  induction 1; rewrite ?enc_all_cons, ?blen_app; lia.
Qed.
Lemma enc_all_app {A} (f : A -> bytes) l l' : enc_all f (l ++ l') = enc_all f l ++ enc_all f l'.
Proof. induction l as [|a l IH]; [reflexivity|]. cbn [app]. now rewrite !enc_all_cons, IH, app_assoc. Qed.

Lemma global0_pairs_size l p : global0_acc l p -> blen (ser_pairs (global0_pairs p)) <= blen (ser_pairs l).
Proof.
  intros (_ & _ & v & H & Hv).
  apply (frame_perm g0frame g0raw g0order_nodup g0order_all) in H.
  assert (E0 : spairs g0ty g0get g0fpairs g0order gdec0_init = []) by reflexivity. rewrite E0, app_nil_r in H. clear E0.
  unfold ser_pairs. rewrite !blen_app, <- (enc_all_perm _ _ _ H). apply N.add_le_mono_r.
  rewrite g0pairs_eq. unfold to_gdec0, spairs, g0order.
  cbn [flat_map g0fpairs g0get gd0_tx gd0_version gd0_xpub gd0_proprietary gd0_unknown opt_pairs].
  rewrite !enc_all_app, !blen_app.
  enough (blen (enc_all ser_pair (opt_pairs xfb ser_u32 (if 0 <? p0_version p then Some (p0_version p) else None)))
          <= blen (enc_all ser_pair (opt_pairs xfb ser_u32 v))) by lia.
  rewrite Hv. destruct v as [n|]; cbn [opt_default]; [|reflexivity].
  destruct (0 <? n); [lia|]. exact (N.le_0_l _).
Qed.

Lemma enc_all_size {A} (f : A -> bytes) (g : A -> N) l :
  Forall (fun a => blen (f a) = g a) l -> blen (enc_all f l) = sum_size g l.
Proof.
  induction 1 as [|a l H1 _ IH]; [reflexivity|]. rewrite enc_all_cons, blen_app, H1, IH. reflexivity.
Qed.
Lemma enc_all_map {A B} (f : B -> bytes) (g : A -> B) l : enc_all f (map g l) = enc_all (fun a => f (g a)) l.
Proof. unfold enc_all. now rewrite map_map. Qed.

Lemma propkey_size_eq k : blen (enc_propkey k) = propkey_size k.
Proof.
  unfold enc_propkey, propkey_size, enc_bytes, varint_size. rewrite !blen_app, blen_cons. lia.
Qed.
Lemma keysource_size k : wf_keysource k -> blen (ser_keysource k) = 4 + 4 * blen (ks_path k).
Proof.
  intros (H & _). unfold ser_keysource. rewrite blen_app. unfold blen at 1. rewrite H.
  enough (forall l, blen (enc_all enc_u32 l) = 4 * blen l) as -> by reflexivity.
  induction l as [|n l IH]; [reflexivity|]. rewrite enc_all_cons, blen_app, IH, blen_cons.
  unfold blen at 1. rewrite enc_u32_length. lia.
Qed.

Lemma global0_size_eq p : wf_g0 p -> blen (ser_pairs (global0_pairs p)) = global0_size p.
Proof.
  intros (_ & Hv & [_ Hx] & _ & _). unfold ser_pairs, global0_pairs, global0_size. rewrite Hv.
  change (0 <? 0) with false. cbv iota. rewrite !enc_all_app, !blen_app. cbn [app].
  rewrite enc_all_cons, blen_app, ser_pair_size. cbn [p_key p_value k_data].
  change (blen (enc_all ser_pair [])) with 0. change (blen [x00]) with 1. change (blen (@nil byte)) with 0.
  unfold map_pairs, prop_pairs, unknown_pairs. rewrite !enc_all_map.
  rewrite (enc_all_size _ (fun xk : xpub * keysource => pair_size 78 (4 + 4 * blen (ks_path (snd xk))))).
  2:{ eapply Forall_impl; [|exact Hx]. intros [x k] [Wx Wk]. cbn [fst snd] in *. rewrite ser_pair_size. cbn [p_key k_data p_value].
      rewrite ser_xpub_len by assumption. now rewrite keysource_size. }
  rewrite (enc_all_size _ (fun kv : propkey * bytes => pair_size (propkey_size (fst kv)) (blen (snd kv)))).
  2:{ apply Forall_forall. intros [k w] _. rewrite ser_pair_size. cbn [p_key k_data p_value fst snd propkey_to_key]. now rewrite propkey_size_eq. }
  rewrite (enc_all_size _ (fun kv : key * bytes => pair_size (blen (k_data (fst kv))) (blen (snd kv)))).
  2:{ apply Forall_forall. intros [k w] _. now rewrite ser_pair_size. }
  unfold tx_base_size. lia.
Qed.

(** ** The grammar *)

Lemma unsigned_checks_iff l : unsigned_inputs_checks l = Ok tt <-> Forall (fun i => ti_script_sig i = [] /\ ti_witness i = []) l.
Proof.
  induction l as [|i l IH]; cbn [unsigned_inputs_checks]; [split; auto|].
  rewrite Forall_cons_iff, <- IH.
  destruct (ti_script_sig i); cbn [is_empty negb fail_if bind]; [|split; [discriminate|intros [[? _] _]; discriminate]].
  destruct (ti_witness i); cbn [is_empty negb fail_if bind]; [|split; [discriminate|intros [[_ ?] _]; discriminate]].
  tauto.
Qed.
Lemma unsigned_checks_np l : unsigned_inputs_checks l <> Panic.
Proof.
  induction l as [|i l IH]; cbn [unsigned_inputs_checks]; [discriminate|].
  destruct (negb _); cbn [fail_if bind]; [discriminate|]. destruct (negb _); cbn [fail_if bind]; [discriminate|auto].
Qed.

Lemma deserialize0_head d : psbt0_deserialize (HEAD ++ d) =
  ('(global, d1) <- global0_decode d ;;
   _ <- unsigned_tx_checks global ;;
   '(inputs, d2) <- dec_maps input0_decode E0Io (S (length d1)) (blen (tx_input (p0_unsigned_tx global))) d1 ;;
   '(outputs, _) <- dec_maps output0_decode E0Io (S (length d2)) (blen (tx_output (p0_unsigned_tx global))) d2 ;;
   Ok (set_p0_outputs outputs (set_p0_inputs inputs global))).
Proof. reflexivity. Qed.

Lemma deserialize0_gate bs p : psbt0_deserialize bs = Ok p -> bs = HEAD ++ skipn 5 bs.
Proof.
  unfold psbt0_deserialize. intros H.
  destruct (bytes_eqb (firstn 4 bs) MAGIC_BYTES) eqn:E1; [|discriminate].
  destruct (bytes_eqb (firstn 1 (skipn 4 bs)) [PSBT_SEPARATOR]) eqn:E2; [|discriminate].
  now apply head_split.
Qed.

Definition input0_maps := dec_maps_iff input0_decode ser_pairs input0_acc E0Io input0_decode_iff ser_pairs_nonempty.
Definition output0_maps := dec_maps_iff output0_decode ser_pairs output0_acc E0Io output0_decode_iff ser_pairs_nonempty.

(** The lists of pairs of an accepted byte string. *)
Definition accepted0 (p : psbt0) (lg : list pair) (lis los : list (list pair)) : Prop :=
  global0_acc lg p /\ Forall2 input0_acc lis (p0_inputs p) /\ Forall2 output0_acc los (p0_outputs p) /\
  unsigned (p0_unsigned_tx p) /\ blen (tx_input (p0_unsigned_tx p)) = blen (p0_inputs p)
  /\ blen (tx_output (p0_unsigned_tx p)) = blen (p0_outputs p).

Lemma deserialize0_iff bs p :
  psbt0_deserialize bs = Ok p <->
  exists lg lis los r, bs = HEAD ++ ser_pairs lg ++ concat (map ser_pairs lis) ++ concat (map ser_pairs los) ++ r
    /\ accepted0 p lg lis los.
Proof.
  split.
  - intros H. pose proof (deserialize0_gate _ _ H) as E. rewrite E in H. rewrite deserialize0_head in H.
    apply bind_ok in H as ([g d1] & H1 & H).
    apply bind_ok in H as ([] & Hu & H).
    apply bind_ok in H as ([is d2] & H2 & H).
    apply bind_ok in H as ([os d3] & H3 & H). inj H.
    apply global0_decode_iff in H1 as (_ & _ & lg & E1 & A1). apply unsigned_checks_iff in Hu.
    apply input0_maps in H2 as (lis & -> & A2 & N2). apply output0_maps in H3 as (los & -> & A3 & N3).
    exists lg, lis, los, d3. split.
    + now rewrite E, E1.
    + unfold accepted0, set_p0_outputs, set_p0_inputs. cbn [p0_unsigned_tx p0_inputs p0_outputs]. auto 8.
  - intros (lg & lis & los & r & -> & A1 & A2 & A3 & Hu & N1 & N2). rewrite deserialize0_head.
    set (g := set_p0_outputs [] (set_p0_inputs [] p)).
    assert (D1 : global0_decode (ser_pairs lg ++ concat (map ser_pairs lis) ++ concat (map ser_pairs los) ++ r)
                 = Ok (g, concat (map ser_pairs lis) ++ concat (map ser_pairs los) ++ r)).
    { apply global0_decode_iff. split; [reflexivity|]. split; [reflexivity|]. exists lg. split; [reflexivity|exact A1]. }
    rewrite D1. cbn [bind]. unfold unsigned_tx_checks. change (p0_unsigned_tx g) with (p0_unsigned_tx p).
    rewrite (proj2 (unsigned_checks_iff _) Hu). cbn [bind]. rewrite N1, N2.
    match goal with |- context [dec_maps input0_decode ?o ?f ?n ?d] =>
      assert (D2 : dec_maps input0_decode o f n d = Ok (p0_inputs p, concat (map ser_pairs los) ++ r)) by (apply input0_maps; eauto) end.
    rewrite D2. cbn [bind].
    match goal with |- context [dec_maps output0_decode ?o ?f ?n ?d] =>
      assert (D3 : dec_maps output0_decode o f n d = Ok (p0_outputs p, r)) by (apply output0_maps; eauto) end.
    rewrite D3. cbn [bind]. now destruct p.
Qed.

Lemma wf_psbt0_g0 p : wf_psbt0 p -> wf_g0 p.
Proof.
  intros H. repeat split; try apply H.
  eapply Forall_impl; [|exact (wp0_unsigned _ H)]. now intros i [_ Q].
Qed.

Lemma accepted0_wf p lg lis los : accepted0 p lg lis los -> wf_psbt0 p.
Proof.
  intros (A1 & A2 & A3 & Hu & N1 & N2). pose proof (global0_acc_wf _ _ A1) as W.
  pose proof (global0_pairs_size _ _ A1) as Hs. rewrite (global0_size_eq p W) in Hs.
  destruct A1 as (_ & Hm & _). destruct W as (((W1 & _) & W2) & W3 & W4 & W5 & W6). constructor; auto.
  - change 4000000 with MAX_VEC_SIZE. lia.
  - clear -A2 L. induction A2 as [|l i ls is H1 H2 IH]; constructor; auto. now apply input0_acc_wf in H1.
  - clear -A3 L. induction A3 as [|l i ls is H1 H2 IH]; constructor; auto. now apply output0_acc_wf in H1.
  - unfold blen in *. lia.
  - unfold blen in *. lia.
Qed.
Lemma deserialize0_wf bs p : psbt0_deserialize bs = Ok p -> wf_psbt0 p.
Proof. intros H. apply deserialize0_iff in H as (lg & lis & los & r & _ & A). now apply accepted0_wf in A. Qed.

Lemma accepted0_pairs p lg lis los : accepted0 p lg lis los ->
  Forall wf_pair lg /\ Forall (Forall wf_pair) lis /\ Forall (Forall wf_pair) los /\
  length lis = length (p0_inputs p) /\ length los = length (p0_outputs p).
Proof.
  intros ((W1 & _) & A2 & A3 & _). split; auto. repeat split.
  - clear -A2. induction A2 as [|l i ls is [H1 _] H2 IH]; constructor; auto.
  - clear -A3. induction A3 as [|l i ls is [H1 _] H2 IH]; constructor; auto.
  - now apply F2_length in A2.
  - now apply F2_length in A3.
Qed.

Lemma deserialize0_maps bs p : psbt0_deserialize bs = Ok p -> exists lg lis los, maps0_of bs p lg lis los.
Proof.
  intros H. apply deserialize0_iff in H as (lg & lis & los & r & E & A).
  destruct (accepted0_pairs _ _ _ _ A) as (W1 & W2 & W3 & N1 & N2).
  exists lg, lis, los. eexists _, r. split; [|split; [|auto]].
  2:{ now apply psbt_wire_intro. }
  rewrite E. now rewrite <- !app_assoc.
Qed.

Lemma deserialize0_unique bs p lg lis los :
  psbt0_deserialize bs = Ok p -> maps0_of bs p lg lis los -> accepted0 p lg lis los.
Proof.
  intros H (w & t & E & W & N1 & N2). apply deserialize0_iff in H as (lg' & lis' & los' & r & E' & A).
  destruct (accepted0_pairs _ _ _ _ A) as (W1 & W2 & W3 & N1' & N2').
  apply psbt_wire_ser in W as (-> & Q1 & Q2 & Q3). rewrite E in E'. rewrite <- !app_assoc in E'.
  apply app_inv_head in E'. apply ser_pairs_unique in E' as [-> E']; auto.
  apply sers_unique in E' as [-> E']; auto; [|congruence].
  apply sers_unique in E' as [-> E']; auto; [congruence].
Qed.

Lemma maps0_unique bs p : psbt0_deserialize bs = Ok p ->
  exists lg lis los, maps0_of bs p lg lis los
    /\ forall lg' lis' los', maps0_of bs p lg' lis' los' -> lg' = lg /\ lis' = lis /\ los' = los.
Proof.
  intros H. destruct (deserialize0_maps _ _ H) as (lg & lis & los & M). exists lg, lis, los. split; auto.
  intros lg' lis' los' M'. pose proof (deserialize0_unique _ _ _ _ _ H M) as A.
  destruct (accepted0_pairs _ _ _ _ A) as (W1 & W2 & W3 & N1 & N2).
  destruct M as (w & t & E & W & _), M' as (w' & t' & E' & W' & N1' & N2').
  apply psbt_wire_ser in W as (-> & _). apply psbt_wire_ser in W' as (-> & Q1 & Q2 & Q3).
  rewrite E in E'. rewrite <- !app_assoc in E'. apply app_inv_head in E'. symmetry in E'.
  apply ser_pairs_unique in E' as [-> E']; auto.
  apply sers_unique in E' as [-> E']; auto; [|congruence].
  apply sers_unique in E' as [-> _]; auto. congruence.
Qed.

(** ** Round trip *)
Lemma serialize0_wire p :
  psbt0_serialize p = HEAD ++ ser_pairs (global0_pairs p)
    ++ concat (map ser_pairs (map input0_pairs (p0_inputs p)))
    ++ concat (map ser_pairs (map output0_pairs (p0_outputs p))).
Proof. unfold psbt0_serialize. rewrite !map_map. reflexivity. Qed.

Lemma serialize0_pairs_wf p : wf_psbt0 p ->
  Forall wf_pair (global0_pairs p) /\ Forall (Forall wf_pair) (map input0_pairs (p0_inputs p)) /\
  Forall (Forall wf_pair) (map output0_pairs (p0_outputs p)).
Proof.
  intros H. split; [apply global0_pairs_wf, wf_psbt0_g0, H|]. split.
  - pose proof (wp0_inputs _ H) as Q. induction Q; constructor; auto. now apply input0_pairs_wf.
  - pose proof (wp0_outputs _ H) as Q. induction Q; constructor; auto. now apply output0_pairs_wf.
Qed.

Lemma serialize0_maps p : wf_psbt0 p ->
  maps0_of (psbt0_serialize p) p (global0_pairs p) (map input0_pairs (p0_inputs p)) (map output0_pairs (p0_outputs p)).
Proof.
  intros H. exists (psbt0_serialize p), []. rewrite app_nil_r. split; auto. split.
  - rewrite serialize0_wire. now apply psbt_wire_intro; apply serialize0_pairs_wf.
  - now rewrite !map_length.
Qed.

Lemma inputs0_rt l : Forall wf_input0 l -> Forall2 input0_acc (map input0_pairs l) l.
Proof. induction 1; cbn; constructor; auto. now apply input0_rt. Qed.
Lemma outputs0_rt l : Forall wf_output0 l -> exists l', Forall2 output0_acc (map output0_pairs l) l' /\
  Forall2 (fun o o' => forall f, o0get f o' = o0norm f (o0get f o)) l l'.
Proof.
  intros H. induction H as [|o l H1 H2 (l' & I1 & I2)]; [exists []; split; constructor|].
  destruct (output0_rt o H1) as (o' & J1 & J2). exists (o' :: l'). cbn. auto.
Qed.

Lemma psbt0_roundtrip_norm p : wf_psbt0 p ->
  exists os', psbt0_deserialize (psbt0_serialize p) = Ok (set_p0_outputs os' p)
    /\ accepted0 (set_p0_outputs os' p) (global0_pairs p) (map input0_pairs (p0_inputs p)) (map output0_pairs (p0_outputs p))
    /\ Forall2 (fun o o' => forall f, o0get f o' = o0norm f (o0get f o)) (p0_outputs p) os'.
Proof.
  intros H. destruct (outputs0_rt _ (wp0_outputs _ H)) as (os' & O1 & O2).
  assert (A : accepted0 (set_p0_outputs os' p) (global0_pairs p) (map input0_pairs (p0_inputs p)) (map output0_pairs (p0_outputs p))).
  { assert (Hlen : blen os' = blen (p0_outputs p)) by (unfold blen; now rewrite (F2_length _ _ _ O2)).
    unfold accepted0, set_p0_outputs. cbn [p0_unsigned_tx p0_inputs p0_outputs]. rewrite Hlen.
    split; [|split; [apply inputs0_rt, H|split; [exact O1|split; [apply H|]]]].
    - apply (global0_rt p); [now apply wf_psbt0_g0|]. rewrite global0_size_eq by now apply wf_psbt0_g0. apply H.
    - pose proof (wp0_input_count _ H). pose proof (wp0_output_count _ H). unfold blen. split; congruence. }
  exists os'. split; auto. apply deserialize0_iff.
  exists (global0_pairs p), (map input0_pairs (p0_inputs p)), (map output0_pairs (p0_outputs p)), [].
  split; auto. rewrite serialize0_wire, app_nil_r. reflexivity.
Qed.

Lemma psbt0_roundtrip p : wf_psbt0 p -> exists p', psbt0_deserialize (psbt0_serialize p) = Ok p' /\ psbt0_eq p p'.
Proof.
  intros H. destruct (psbt0_roundtrip_norm p H) as (os' & H1 & _ & H2). exists (set_p0_outputs os' p). split; auto.
  unfold psbt0_eq, set_p0_outputs. cbn. split; auto.
  pose proof (wp0_outputs _ H) as Q. clear -H2 Q L. induction H2 as [|o o' l l' E _ IH]; constructor.
  - apply Forall_cons_iff in Q as [Q _]. now apply o0norm_eq.
  - apply IH. now apply Forall_cons_iff in Q.
Qed.

Lemma psbt0_roundtrip_exact p : wf_psbt0 p -> no_tap_ties0 p -> psbt0_deserialize (psbt0_serialize p) = Ok p.
Proof.
  intros H Ht. destruct (psbt0_roundtrip_norm p H) as (os' & H1 & _ & H2). rewrite H1. f_equal.
  assert (os' = p0_outputs p); [|subst; now destruct p].
  unfold no_tap_ties0 in Ht. clear H1 H. induction H2 as [|o o' l l' E _ IH]; auto.
  apply Forall_cons_iff in Ht as [Ht1 Ht2]. f_equal; auto. now apply o0norm_exact.
Qed.

(** ** Local behaviour *)
Lemma deserialize0_extend bs p t : psbt0_deserialize bs = Ok p -> psbt0_deserialize (bs ++ t) = Ok p.
Proof.
  intros H. apply deserialize0_iff in H as (lg & lis & los & r & -> & A). apply deserialize0_iff.
  exists lg, lis, los, (r ++ t). split; auto. now rewrite <- !app_assoc.
Qed.

Lemma deserialize0_truncated p pre suf q : wf_psbt0 p -> psbt0_serialize p = pre ++ suf -> suf <> [] ->
  psbt0_deserialize pre <> Ok q.
Proof.
  intros H E Hs D. apply Hs. clear Hs.
  destruct (psbt0_roundtrip_norm p H) as (os' & D2 & A2 & _).
  pose proof (deserialize0_extend _ _ suf D) as D3. rewrite <- E in D3.
  assert (Hq : q = set_p0_outputs os' p) by congruence. subst q.
  destruct (accepted0_pairs _ _ _ _ A2) as (W1 & W2 & W3 & N1 & N2).
  apply deserialize0_iff in D as (lg & lis & los & r & -> & A).
  rewrite serialize0_wire in E. rewrite <- !app_assoc in E. apply app_inv_head in E.
  destruct (accepted0_pairs _ _ _ _ A) as (V1 & V2 & V3 & M1 & M2).
  apply ser_pairs_unique in E as [_ E]; auto; [|now apply ser_pairs_spec].
  assert (Q : forall ls, Forall (Forall wf_pair) ls -> Forall (fun l => map_wire l (ser_pairs l)) ls).
  { intros ls Hl. eapply Forall_impl; [|exact Hl]. intros l. apply ser_pairs_spec. }
  apply sers_unique in E as [_ E]; auto; [|congruence].
  rewrite <- (app_nil_r (concat (map ser_pairs (map output0_pairs _)))) in E.
  apply sers_unique in E as [_ E]; auto; [|congruence].
  symmetry in E. now apply app_eq_nil in E as [_ E].
Qed.

(** ** Panics *)
Lemma deserialize0_np bs : psbt0_deserialize bs <> Panic.
Proof.
  unfold psbt0_deserialize. destruct (negb _); cbn [fail_if bind]; [discriminate|].
  destruct (negb _); cbn [fail_if bind]; [discriminate|].
  pose proof (global0_decode_np (skipn 5 bs)) as Hn.
  destruct (global0_decode (skipn 5 bs)) as [[g d1]| |]; cbn [bind]; try congruence.
  unfold unsigned_tx_checks. pose proof (unsigned_checks_np (tx_input (p0_unsigned_tx g))) as Hu.
  destruct (unsigned_inputs_checks _); cbn [bind]; try congruence.
  pose proof (dec_maps_np input0_decode E0Io (S (length d1)) input0_decode_np (blen (tx_input (p0_unsigned_tx g))) d1) as Hi.
  destruct (dec_maps input0_decode _ _ _ _) as [[is d2]| |]; cbn [bind]; try congruence.
  pose proof (dec_maps_np output0_decode E0Io (S (length d2)) output0_decode_np (blen (tx_output (p0_unsigned_tx g))) d2) as Ho.
  destruct (dec_maps output0_decode _ _ _ _) as [[os d3]| |]; cbn [bind]; congruence.
Qed.

End Facts.

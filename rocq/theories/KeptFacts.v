(** Reading and writing a map keeps its pairs. *)
From Coq Require Import Permutation.
From Verif Require Import Base OMap Consensus ConsensusFacts Ext Raw RawFacts TapTree TapTreeFacts
  Serialize SerializeFacts MapCodec MapFacts V2Global V2GlobalFacts V2Input V2InputFacts V2Output V2OutputFacts V2Psbt
  SpecCodec SpecCodecFacts SpecPsbt V2PsbtFacts V2CodecFacts V2WireFacts V2PairFacts
  V0Error V0Input V0Output V0Psbt V0OutputFacts V0InputFacts V0GlobalFacts SpecPsbt0 V0PsbtFacts V0WireFacts
  SpecTx TxWireFacts SpecTapTree TapTreeWireFacts SpecKept.
Local Open Scope N_scope.

(** ** From fields to maps *)

(** Each pair is kept up to [R]. *)
Definition fkeep {A} (R : pair -> pair -> Prop) (types : byte -> Prop) (upd : pair -> A -> res ierr A) (pairs : A -> list pair) : Prop :=
  forall p a a', types (ptype p) -> upd p a = Ok a' -> exists q, R p q /\ Permutation (pairs a') (q :: pairs a).
Lemma fraw_keep {A} (R : pair -> pair -> Prop) types (upd : pair -> A -> res ierr A) pairs :
  (forall p, R p p) -> fraw types upd pairs -> fkeep R types upd pairs.
Proof. intros Hr H p a a' Ht E. exists p. auto. Qed.
Lemma fkeep_types {A} (R : pair -> pair -> Prop) (t1 t2 : byte -> Prop) (upd : pair -> A -> res ierr A) pairs :
  (forall t, t1 t <-> t2 t) -> fkeep R t1 upd pairs -> fkeep R t2 upd pairs.
Proof. intros E H p a a' Hp. apply H. now apply E. Qed.

Lemma ins_all_keep {A} (R : pair -> pair -> Prop) types (upd : pair -> A -> res ierr A) pairs l :
  fkeep R types upd pairs -> Forall (fun p => types (ptype p)) l -> forall a a', ins_all upd l a = Ok a' ->
  exists k, Forall2 R l k /\ Permutation (pairs a') (k ++ pairs a).
Proof.
  intros H F. induction F as [|p l Hp Hl IH]; intros a a' E; cbn [ins_all] in E.
  - inj E. exists []. split; [constructor|reflexivity].
  - binds E. destruct (H _ _ _ Hp Hx) as (q & Hq & P). destruct (IH _ _ E) as (k & Hk & Q).
    exists (q :: k). split; [now constructor|]. rewrite Q, P. cbn [app]. symmetry. apply Permutation_middle.
Qed.

Section Frame.
Context {S F : Type} {fty : F -> Type} {get : forall f, S -> fty f} {set : forall f, fty f -> S -> S}
  (Fdec : forall a b : F, {a = b} + {a <> b})
  {upd : forall f, pair -> fty f -> res ierr (fty f)} {slot : byte -> F} {ins : pair -> S -> res ierr S}
  {pairs : forall f, fty f -> list pair} {order : list F}.
Hypothesis Ond : NoDup order.
Hypothesis Oall : forall f, In f order.

Lemma split_slots l : Permutation (flat_map (fun f => filter (of_slot Fdec slot f) l) order) l.
Proof.
  induction l as [|p l IH].
  - clear. induction order; auto.
  - transitivity (p :: flat_map (fun f => filter (of_slot Fdec slot f) l) order); [|now constructor].
    apply (flat_map_change _ _ (slot (ptype p))); auto.
    + intros g Hg. cbn [filter]. destruct (of_slot Fdec slot g p) eqn:E; [|reflexivity]. apply of_slot_true in E. congruence.
    + cbn [filter]. assert (E : of_slot Fdec slot (slot (ptype p)) p = true) by now apply of_slot_true. rewrite E. reflexivity.
Qed.

Lemma frame_kept (R : pair -> pair -> Prop) (extra : F -> list pair) l s :
  (forall f, rewritten R (extra f) (filter (of_slot Fdec slot f) l) (pairs f (get f s))) ->
  rewritten R (flat_map extra order) l (spairs fty get pairs order s).
Proof.
  intros H.
  assert (G : rewritten R (flat_map extra order) (flat_map (fun f => filter (of_slot Fdec slot f) l) order) (spairs fty get pairs order s)).
  { unfold spairs. clear Ond Oall. induction order as [|f o IH].
    - exists []. split; [constructor|reflexivity].
    - destruct (H f) as (k & F1 & P1). destruct IH as (k' & F2 & P2). exists (k ++ k'). cbn [flat_map]. split; [now apply Forall2_app|].
      rewrite P1, P2, <- !app_assoc. apply Permutation_app_head. rewrite !app_assoc. apply Permutation_app_tail, Permutation_app_comm. }
  destruct G as (k & F1 & P1). destruct (Permutation_Forall2 (split_slots l) F1) as (k' & P2 & F2).
  exists k'. split; [exact F2|]. now rewrite P1, P2.
Qed.
End Frame.

Lemma keep_rewritten {A} (R : pair -> pair -> Prop) types (upd : pair -> A -> res ierr A) pairs a0 l a :
  fkeep R types upd pairs -> pairs a0 = [] -> Forall (fun p => types (ptype p)) l -> ins_all upd l a0 = Ok a ->
  rewritten R [] l (pairs a).
Proof.
  intros K E F H. destruct (ins_all_keep _ _ _ _ _ K F _ _ H) as (k & F1 & P). exists k. now rewrite <- E.
Qed.

(** ** Fields *)
Lemma opt_fkeep {A} (R : pair -> pair -> Prop) t (ser : A -> bytes) de :
  (forall v a, de v = Ok a -> R (Pair (Key t []) v) (Pair (Key t []) (ser a))) -> fkeep R (eq t) (ins_opt de) (opt_pairs t ser).
Proof.
  intros Hc p a a' Ht H. unfold ins_opt in H. destruct (is_empty _) eqn:E; [|discriminate].
  destruct a; cbn [is_none] in H; [discriminate|]. binds H. apply map_err_ok in Hx. apply Hc in Hx. inj H.
  cbn [opt_pairs]. apply is_empty_nil in E. unfold ptype in *. destruct p as [[kt kd] v]. cbn in *. subst. eauto.
Qed.
Lemma map_fkeep {K V} (R : pair -> pair -> Prop) t (sk : K -> list N) (serk : K -> bytes) dek (serv : V -> bytes) dev :
  (forall kd v k a, dek kd = Ok k -> dev v = Ok a -> R (Pair (Key t kd) v) (Pair (Key t (serk k)) (serv a))) ->
  fkeep R (eq t) (ins_map sk dek dev) (map_pairs t serk serv).
Proof.
  intros Hv p m m' Ht H. apply ins_map_inv in H as (k & v & H1 & H2 & H3 & ->).
  unfold m_mem in H3. destruct (m_get sk k m) eqn:Eg; [discriminate|]. unfold ptype in *. destruct p as [[kt kd] w]. cbn in *. subst.
  exists (Pair (Key kt (serk k)) (serv v)). split; [now apply Hv|].
  unfold map_pairs. rewrite (Permutation_map _ (m_put_permutation sk k v m Eg)). reflexivity.
Qed.
Lemma hash_fraw t n h ht : (0 < n <= 32)%nat -> fraw (eq t) (ins_hash (N.of_nat n) h ht) (map_pairs t ser_hash ser_vec).
Proof.
  intros Hn p m m' Ht H. apply ins_hash_inv in H as (_ & _ & _ & M & ->); [|exact Hn]. apply m_mem_false in M.
  unfold map_pairs. rewrite (Permutation_map _ (m_put_permutation bkey _ _ _ M)). cbn [map fst snd].
  unfold ptype in *. destruct p as [[kt kd] w]. cbn in *. subst. reflexivity.
Qed.
Lemma script_canonical : canonical ser_script de_script.
Proof. intros b a H. unfold de_script in H. now inj H. Qed.
Lemma hash_canonical n : canonical ser_hash (de_hash n).
Proof. intros b a H. unfold de_hash in H. destruct (_ =? _); [|discriminate]. now inj H. Qed.

Section Facts.
Context `{X : Ext} {L : ExtLaws X} `{C : Cfg}.

(** ** Values with more than one form *)
Lemma esig_kept kd v s : de_esig v = Ok s -> kept_in0 (Pair (Key x02 kd) v) (Pair (Key x02 kd) (ser_esig s)).
Proof.
  intros H. apply de_esig_accepts in H as (d & D & ->). unfold ser_esig.
  exact (K0Der kd d (es_der s) (es_der s) _ D (der_parse_idem _ _ D)).
Qed.
Lemma tsig_kept t kd v s : t = x13 \/ t = x14 -> de_tsig v = Ok s -> kept_in0 (Pair (Key t kd) v) (Pair (Key t kd) (ser_tsig s)).
Proof.
  intros Ht H. pose proof (de_tsig_accepts _ _ H) as [->|[E ->]]; [constructor|].
  assert (Q : ser_tsig s = ts_sig s) by (unfold ser_tsig; now rewrite E). rewrite Q. apply K0Default; [exact Ht|].
  unfold de_tsig in H. destruct (blen _ =? 64) eqn:E1.
  - injection H as H. rewrite <- H in E1. cbn [ts_sig] in E1. rewrite <- H in E. exfalso. apply (f_equal ts_sig) in H. cbn [ts_sig] in H.
    apply (f_equal (@length byte)) in H. rewrite app_length in H. cbn in H. lia.
  - destruct (blen _ =? 65) eqn:E2; [|discriminate]. unfold blen in E2. rewrite app_length in E2. cbn [length] in E2. lia.
Qed.

Lemma secp_kept kd k : de_secp kd = Ok k -> secp_parse kd = Some k.
Proof. unfold de_secp. intros H. destruct (secp_parse kd); [|discriminate]. now inj H. Qed.

(** ** v0 *)
Lemma i0keep f : fkeep kept_in0 (fun t => i0slot t = f) (i0upd f) (i0fpairs f).
Proof.
  destruct f; cbn [i0upd i0fpairs i0ty];
    try (apply fraw_keep; [exact K0Same|first [exact i0raw_I0Proprietary|exact i0raw_I0Unknown]]).
  - apply (fkeep_types _ (eq x00)); [intros t; apply i0slot_I0NonWitnessUtxo|]. apply fraw_keep; [exact K0Same|]. apply opt_fraw. apply tx_canonical.
  - apply (fkeep_types _ (eq x01)); [intros t; apply i0slot_I0WitnessUtxo|]. apply fraw_keep; [exact K0Same|]. apply opt_fraw. apply txout_canonical.
  - apply (fkeep_types _ (eq x02)); [intros t; apply i0slot_I0PartialSigs|]. apply map_fkeep. intros kd v k a Hk Hv. rewrite (pubkey_canonical _ _ Hk). exact (esig_kept _ _ _ Hv).
  - apply (fkeep_types _ (eq x03)); [intros t; apply i0slot_I0SighashType|]. apply fraw_keep; [exact K0Same|]. apply opt_fraw. apply u32_canonical.
  - apply (fkeep_types _ (eq x04)); [intros t; apply i0slot_I0RedeemScript|]. apply fraw_keep; [exact K0Same|]. apply opt_fraw. apply script_canonical.
  - apply (fkeep_types _ (eq x05)); [intros t; apply i0slot_I0WitnessScript|]. apply fraw_keep; [exact K0Same|]. apply opt_fraw. apply script_canonical.
  - apply (fkeep_types _ (eq x06)); [intros t; apply i0slot_I0Bip32|]. apply map_fkeep. intros kd v k a Hk Hv. rewrite (keysource_canonical _ _ Hv). exact (K0Key _ _ _ (secp_kept _ _ Hk)).
  - apply (fkeep_types _ (eq x07)); [intros t; apply i0slot_I0FinalScriptSig|]. apply fraw_keep; [exact K0Same|]. apply opt_fraw. apply script_canonical.
  - apply (fkeep_types _ (eq x08)); [intros t; apply i0slot_I0FinalScriptWitness|]. apply fraw_keep; [exact K0Same|]. apply opt_fraw. apply witness_canonical.
  - apply (fkeep_types _ (eq x0a)); [intros t; apply i0slot_I0Ripemd160|]. apply fraw_keep; [exact K0Same|]. exact (hash_fraw _ 20%nat _ _ ltac:(lia)).
  - apply (fkeep_types _ (eq x0b)); [intros t; apply i0slot_I0Sha256|]. apply fraw_keep; [exact K0Same|]. exact (hash_fraw _ 32%nat _ _ ltac:(lia)).
  - apply (fkeep_types _ (eq x0c)); [intros t; apply i0slot_I0Hash160|]. apply fraw_keep; [exact K0Same|]. exact (hash_fraw _ 20%nat _ _ ltac:(lia)).
  - apply (fkeep_types _ (eq x0d)); [intros t; apply i0slot_I0Hash256|]. apply fraw_keep; [exact K0Same|]. exact (hash_fraw _ 32%nat _ _ ltac:(lia)).
  - apply (fkeep_types _ (eq x13)); [intros t; apply i0slot_I0TapKeySig|]. apply opt_fkeep. intros v a H. exact (tsig_kept _ _ _ _ (or_introl eq_refl) H).
  - apply (fkeep_types _ (eq x14)); [intros t; apply i0slot_I0TapScriptSigs|]. apply map_fkeep. intros kd v k a Hk Hv. rewrite (xleaf_canonical _ _ Hk). exact (tsig_kept _ _ _ _ (or_intror eq_refl) Hv).
  - apply (fkeep_types _ (eq x15)); [intros t; apply i0slot_I0TapScripts|]. apply fraw_keep; [exact K0Same|]. apply map_fraw; [apply controlblock_canonical|apply leafscript_canonical].
  - apply (fkeep_types _ (eq x16)); [intros t; apply i0slot_I0TapKeyOrigins|]. apply fraw_keep; [exact K0Same|]. apply map_fraw; [apply xonly_canonical|apply taporigin_canonical].
  - apply (fkeep_types _ (eq x17)); [intros t; apply i0slot_I0TapInternalKey|]. apply fraw_keep; [exact K0Same|]. apply opt_fraw. apply xonly_canonical.
  - apply (fkeep_types _ (eq x18)); [intros t; apply i0slot_I0TapMerkleRoot|]. apply fraw_keep; [exact K0Same|]. apply opt_fraw. apply hash_canonical.
Qed.

Lemma taptree_kept v t : de_taptree v = Ok t -> kept_out0 (Pair (Key x06 []) v) (Pair (Key x06 []) (ser_taptree t)).
Proof.
  intros H. apply de_taptree_node in H as (sh & W & N & T).
  exact (KO0Tree sh (can sh) v (ser_taptree t) W (can_swapped sh) T (ser_taptree_wire _ _ W N)).
Qed.
Lemma o0keep f : fkeep kept_out0 (fun t => o0slot t = f) (o0upd f) (o0fpairs f).
Proof.
  destruct f; cbn [o0upd o0fpairs o0ty];
    try (apply fraw_keep; [exact KO0Same|first [exact o0raw_O0Proprietary|exact o0raw_O0Unknown]]).
  - apply (fkeep_types _ (eq x00)); [intros t; apply o0slot_O0RedeemScript|]. apply fraw_keep; [exact KO0Same|]. apply opt_fraw. apply script_canonical.
  - apply (fkeep_types _ (eq x01)); [intros t; apply o0slot_O0WitnessScript|]. apply fraw_keep; [exact KO0Same|]. apply opt_fraw. apply script_canonical.
  - apply (fkeep_types _ (eq x02)); [intros t; apply o0slot_O0Bip32|]. apply map_fkeep. intros kd v k a Hk Hv. rewrite (keysource_canonical _ _ Hv). exact (KO0Key _ _ _ (secp_kept _ _ Hk)).
  - apply (fkeep_types _ (eq x05)); [intros t; apply o0slot_O0TapInternalKey|]. apply fraw_keep; [exact KO0Same|]. apply opt_fraw. apply xonly_canonical.
  - apply (fkeep_types _ (eq x06)); [intros t; apply o0slot_O0TapTree|]. apply opt_fkeep. intros v a H. exact (taptree_kept _ _ H).
  - apply (fkeep_types _ (eq x07)); [intros t; apply o0slot_O0TapKeyOrigins|]. apply fraw_keep; [exact KO0Same|]. apply map_fraw; [apply xonly_canonical|apply taporigin_canonical].
Qed.

Lemma slot_forall {F} (Fdec : forall a b : F, {a = b} + {a <> b}) (slot : byte -> F) f l :
  Forall (fun p => slot (ptype p) = f) (filter (of_slot Fdec slot f) l).
Proof. apply of_slot_Forall. Qed.

Lemma input0_rewritten l i : input0_acc l i -> rewritten kept_in0 [] l (input0_pairs i).
Proof.
  intros [_ H]. rewrite i0pairs_eq.
  assert (E : flat_map (fun _ : i0field => @nil pair) i0order = []) by reflexivity. rewrite <- E.
  apply (frame_kept i0field_dec (slot := i0slot) i0order_nodup i0order_all). intros f.
  apply (keep_rewritten _ (fun t => i0slot t = f) (i0upd f) _ (i0get f input0_default)); [apply i0keep|now destruct f|apply slot_forall|].
  exact (frame_fields _ _ _ _ _ _ _ i0frame _ _ _ H f).
Qed.
Lemma output0_rewritten l o : output0_acc l o -> rewritten kept_out0 [] l (output0_pairs o).
Proof.
  intros [_ H]. rewrite o0pairs_eq.
  assert (E : flat_map (fun _ : o0field => @nil pair) o0order = []) by reflexivity. rewrite <- E.
  apply (frame_kept o0field_dec (slot := o0slot) o0order_nodup o0order_all). intros f.
  apply (keep_rewritten _ (fun t => o0slot t = f) (o0upd f) _ (o0get f output0_default)); [apply o0keep|now destruct f|apply slot_forall|].
  exact (frame_fields _ _ _ _ _ _ _ o0frame _ _ _ H f).
Qed.

(** ** v2 *)
Lemma sp_fkeep (R : pair -> pair -> Prop) t (serv : bytes -> bytes) dev want :
  (forall kd v k a, secp_parse kd = Some k -> dev v = Some a -> R (Pair (Key t kd) v) (Pair (Key t k) (serv a))) ->
  fkeep R (eq t) (ins_sp dev want) (map_pairs t ser_secp serv).
Proof.
  intros H p m m' Ht E. apply ins_sp_map in E. refine (map_fkeep R t bkey ser_secp dek_sp serv (dev_sp dev) _ p m m' Ht E).
  intros kd v k a Hk Hv. unfold dek_sp, de_cpk in Hk. apply ok_or_ok in Hk. unfold dev_sp in Hv. apply ok_or_ok in Hv. now apply H.
Qed.
Lemma fkeep_off {A} (R : pair -> pair -> Prop) (types : byte -> Prop) (upd : pair -> A -> res ierr A) pairs :
  (forall t, ~ types t) -> fkeep R types upd pairs.
Proof. intros H p a a' Hp. destruct (H _ Hp). Qed.

Definition last_list (l : list pair) : list pair := match rev l with [] => [] | p :: _ => [p] end.
Lemma placeholder_rewritten {A} (R : pair -> pair -> Prop) t (isp : A -> bool) de ser empty l a :
  canonical ser de -> (forall kd v, R (Pair (Key t kd) v) (Pair (Key t []) v)) ->
  Forall (fun p => t = ptype p) l -> ins_all (ins_placeholder isp de) l empty = Ok a ->
  rewritten R (if is_empty l then [Pair (Key t []) (ser empty)] else []) (last_list l) [Pair (Key t []) (ser a)].
Proof.
  intros Hc HR F H. destruct l as [|p l _] using rev_ind.
  - cbn [ins_all] in H. inj H. exists []. split; [constructor|reflexivity].
  - unfold last_list. rewrite rev_app_distr. cbn [rev app]. rewrite ins_all_app in H. binds H. cbn [ins_all] in H. binds H. inj H.
    apply Forall_app in F as [_ F]. apply Forall_cons_iff in F as [F _].
    unfold ins_placeholder in Hx0. destruct (isp _); [|discriminate]. cbn [negb] in Hx0.
    apply map_err_ok in Hx0. apply Hc in Hx0. exists [Pair (Key t []) (ser a)]. split.
    + constructor; [|constructor]. destruct p as [[kt kd] v]. cbn in *. subst. apply HR.
    + destruct l; reflexivity.
Qed.

Lemma last_only_other (P : pair -> bool) t l : (forall p, beq (k_type (p_key p)) t = true -> P p = false) -> filter P (last_only t l) = filter P l.
Proof.
  intros H. induction l as [|p l IH]; [reflexivity|]. cbn [last_only filter]. destruct (beq (k_type (p_key p)) t) eqn:E; cbn [andb].
  - rewrite (H _ E). destruct (existsb _ l); [exact IH|]. cbn [filter]. rewrite (H _ E). exact IH.
  - cbn [filter]. now rewrite IH.
Qed.
Lemma last_only_comm (P : pair -> bool) t l : (forall p, beq (k_type (p_key p)) t = true -> P p = true) ->
  filter P (last_only t l) = last_only t (filter P l).
Proof.
  intros H. assert (G : forall l, existsb (fun q => beq (k_type (p_key q)) t) (filter P l) = existsb (fun q => beq (k_type (p_key q)) t) l).
  { clear l. induction l as [|p l IH]; [reflexivity|]. cbn [filter existsb]. destruct (beq (k_type (p_key p)) t) eqn:E.
    - rewrite (H _ E). cbn [existsb]. now rewrite E.
    - destruct (P p); [cbn [existsb]; now rewrite E, IH|exact IH]. }
  induction l as [|p l IH]; [reflexivity|]. cbn [last_only filter]. destruct (beq (k_type (p_key p)) t) eqn:E; cbn [andb].
  - rewrite (H _ E). cbn [last_only]. rewrite E, G. cbn [andb]. destruct (existsb _ l); [exact IH|]. cbn [filter]. now rewrite (H _ E), IH.
  - cbn [filter]. destruct (P p); [cbn [last_only]; rewrite E; cbn [andb]; now rewrite IH|exact IH].
Qed.
Lemma last_only_self t l : Forall (fun p => t = ptype p) l -> last_only t l = last_list l.
Proof.
  intros F. induction F as [|p l Hp Hl IH]; [reflexivity|]. unfold ptype in Hp. cbn [last_only]. rewrite <- Hp, beq_refl. cbn [andb].
  unfold last_list in *. cbn [rev]. destruct l as [|q l].
  - reflexivity.
  - pose proof (proj1 (Forall_cons_iff _ _ _) Hl) as [Hq _]. cbn [existsb]. unfold ptype in Hq. rewrite <- Hq at 1. rewrite beq_refl. cbn [orb].
    rewrite IH. cbn [rev]. destruct (rev l ++ [q]) as [|r m] eqn:Er; [|reflexivity]. apply app_eq_nil in Er as [_ Er]. discriminate.
Qed.

Lemma slot_filter {F} (Fdec : forall a b : F, {a = b} + {a <> b}) (slot : byte -> F) f t l :
  (forall u, t = u <-> slot u = f) -> filter (of_slot Fdec slot f) l = filter (fun p => beq (k_type (p_key p)) t) l.
Proof.
  intros H. apply filter_ext. intros p. destruct (beq (k_type (p_key p)) t) eqn:E.
  - apply beq_eq in E. apply of_slot_true. apply H. now symmetry.
  - destruct (of_slot Fdec slot f p) eqn:E2; [|reflexivity]. apply of_slot_true in E2. apply H in E2. unfold ptype in E2.
    rewrite <- E2 in E. rewrite beq_refl in E. discriminate.
Qed.
Lemma slot_types {F} (Fdec : forall a b : F, {a = b} + {a <> b}) (slot : byte -> F) f t l :
  (forall u, t = u <-> slot u = f) -> Forall (fun p => t = ptype p) (filter (of_slot Fdec slot f) l).
Proof. intros H. eapply Forall_impl; [|apply slot_forall]. intros p Hp. now apply H. Qed.
Lemma slot_other {F} (Fdec : forall a b : F, {a = b} + {a <> b}) (slot : byte -> F) f g t l :
  (forall u, t = u <-> slot u = f) -> g <> f -> filter (of_slot Fdec slot g) (last_only t l) = filter (of_slot Fdec slot g) l.
Proof.
  intros H Hn. apply last_only_other. intros p E. apply beq_eq in E. destruct (of_slot _ _ _ _) eqn:E2; [|reflexivity]. apply of_slot_true in E2.
  symmetry in E. apply H in E. unfold ptype in E2. congruence.
Qed.
Lemma slot_last {F} (Fdec : forall a b : F, {a = b} + {a <> b}) (slot : byte -> F) f t l :
  (forall u, t = u <-> slot u = f) -> filter (of_slot Fdec slot f) (last_only t l) = last_list (filter (of_slot Fdec slot f) l).
Proof.
  intros H. rewrite last_only_comm.
  - apply last_only_self. now apply slot_types.
  - intros p E. apply beq_eq in E. apply of_slot_true. apply H. now symmetry.
Qed.
Lemma lacks_filter t l : is_empty (filter (fun p => beq (k_type (p_key p)) t) l) = lacks t l.
Proof.
  unfold lacks. induction l as [|p l IH]; [reflexivity|]. cbn. destruct (beq _ _); [reflexivity|exact IH].
Qed.

Lemma dleq_try_inv v a : dleq_try_from v = Some a -> a = v.
Proof. unfold dleq_try_from. destruct (_ =? _); [|discriminate]. now intros [= ->]. Qed.
Lemma info_fraw : fraw (eq x09) ins_sp_v0_info (opt_pairs x09 ser_vec).
Proof.
  intros p a a' Ht H. unfold ins_sp_v0_info in H. destruct a; cbn [is_some fail_if bind] in H; [discriminate|].
  destruct (is_empty (k_data (p_key p))) eqn:E; cbn [negb fail_if bind] in H; [|discriminate]. apply is_empty_nil in E.
  destruct (negb _); cbn [fail_if bind] in H; [discriminate|]. inj H.
  destruct p as [[kt kd] v]. cbn in *. subst. reflexivity.
Qed.
Lemma label_fraw : fraw (eq x0a) ins_sp_v0_label (opt_pairs x0a (le_enc 4)).
Proof.
  intros p a a' Ht H. unfold ins_sp_v0_label in H. destruct a; cbn [is_some fail_if bind] in H; [discriminate|].
  destruct (is_empty (k_data (p_key p))) eqn:E; cbn [negb fail_if bind] in H; [|discriminate]. apply is_empty_nil in E.
  destruct (blen (p_value p) =? 4) eqn:E4; cbn [negb fail_if bind] in H; [|discriminate]. inj H.
  destruct p as [[kt kd] v]. cbn [p_key p_value k_data ptype k_type opt_pairs] in *. subst. assert (length v = 4%nat) as Q by (unfold blen in E4; lia).
  replace (le_enc 4 (le_dec v)) with v; [reflexivity|]. rewrite <- Q. symmetry. apply le_enc_dec.
Qed.

Lemma ikeep f : ispecial f = false -> fkeep kept_in (fun t => islot t = f) (iupd f) (ifpairs f).
Proof.
  assert (S : forall p, kept_in p p) by (intros p; apply KI0, K0Same).
  destruct f; cbn [iupd ifpairs ity]; intros Hs; try discriminate Hs;
    try (apply fraw_keep; [exact S|first [exact iraw_IProprietaries|exact iraw_IUnknowns]]).
  - apply (fkeep_types _ (eq x10)); [intros t; apply islot_ISequence|]. apply fraw_keep; [exact S|]. apply opt_fraw. apply u32_canonical.
  - apply (fkeep_types _ (eq x11)); [intros t; apply islot_IMinTime|]. apply fraw_keep; [exact S|]. apply opt_fraw. apply time_canonical.
  - apply (fkeep_types _ (eq x12)); [intros t; apply islot_IMinHeight|]. apply fraw_keep; [exact S|]. apply opt_fraw. apply height_canonical.
  - apply (fkeep_types _ (eq x00)); [intros t; apply islot_INonWitnessUtxo|]. apply fraw_keep; [exact S|]. apply opt_fraw. apply tx_canonical.
  - apply (fkeep_types _ (eq x01)); [intros t; apply islot_IWitnessUtxo|]. apply fraw_keep; [exact S|]. apply opt_fraw. apply txout_canonical.
  - apply (fkeep_types _ (eq x02)); [intros t; apply islot_IPartialSigs|]. apply map_fkeep. intros kd v k a Hk Hv. rewrite (pubkey_canonical _ _ Hk). exact (KI0 _ _ (esig_kept _ _ _ Hv)).
  - apply (fkeep_types _ (eq x03)); [intros t; apply islot_ISighashType|]. apply fraw_keep; [exact S|]. apply opt_fraw. apply u32_canonical.
  - apply (fkeep_types _ (eq x04)); [intros t; apply islot_IRedeemScript|]. apply fraw_keep; [exact S|]. apply opt_fraw. apply script_canonical.
  - apply (fkeep_types _ (eq x05)); [intros t; apply islot_IWitnessScript|]. apply fraw_keep; [exact S|]. apply opt_fraw. apply script_canonical.
  - apply (fkeep_types _ (eq x06)); [intros t; apply islot_IBip32|]. apply map_fkeep. intros kd v k a Hk Hv. rewrite (keysource_canonical _ _ Hv). exact (KI0 _ _ (K0Key _ _ _ (secp_kept _ _ Hk))).
  - apply (fkeep_types _ (eq x07)); [intros t; apply islot_IFinalScriptSig|]. apply fraw_keep; [exact S|]. apply opt_fraw. apply script_canonical.
  - apply (fkeep_types _ (eq x08)); [intros t; apply islot_IFinalScriptWitness|]. apply fraw_keep; [exact S|]. apply opt_fraw. apply witness_canonical.
  - apply (fkeep_types _ (eq x0a)); [intros t; apply islot_IRipemd160|]. apply fraw_keep; [exact S|]. exact (hash_fraw _ 20%nat _ _ ltac:(lia)).
  - apply (fkeep_types _ (eq x0b)); [intros t; apply islot_ISha256|]. apply fraw_keep; [exact S|]. exact (hash_fraw _ 32%nat _ _ ltac:(lia)).
  - apply (fkeep_types _ (eq x0c)); [intros t; apply islot_IHash160|]. apply fraw_keep; [exact S|]. exact (hash_fraw _ 20%nat _ _ ltac:(lia)).
  - apply (fkeep_types _ (eq x0d)); [intros t; apply islot_IHash256|]. apply fraw_keep; [exact S|]. exact (hash_fraw _ 32%nat _ _ ltac:(lia)).
  - apply (fkeep_types _ (eq x13)); [intros t; apply islot_ITapKeySig|]. apply opt_fkeep. intros v a H. exact (KI0 _ _ (tsig_kept _ _ _ _ (or_introl eq_refl) H)).
  - apply (fkeep_types _ (eq x14)); [intros t; apply islot_ITapScriptSigs|]. apply map_fkeep. intros kd v k a Hk Hv. rewrite (xleaf_canonical _ _ Hk). exact (KI0 _ _ (tsig_kept _ _ _ _ (or_intror eq_refl) Hv)).
  - apply (fkeep_types _ (eq x15)); [intros t; apply islot_ITapScripts|]. apply fraw_keep; [exact S|]. apply map_fraw; [apply controlblock_canonical|apply leafscript_canonical].
  - apply (fkeep_types _ (eq x16)); [intros t; apply islot_ITapKeyOrigins|]. apply fraw_keep; [exact S|]. apply map_fraw; [apply xonly_canonical|apply taporigin_canonical].
  - apply (fkeep_types _ (eq x17)); [intros t; apply islot_ITapInternalKey|]. apply fraw_keep; [exact S|]. apply opt_fraw. apply xonly_canonical.
  - apply (fkeep_types _ (eq x18)); [intros t; apply islot_ITapMerkleRoot|]. apply fraw_keep; [exact S|]. apply opt_fraw. apply hash_canonical.
  - destruct feat_sp eqn:F.
    + apply (fkeep_types _ (eq x1d)); [intros t; now apply islot_ISpEcdhShares|]. apply sp_fkeep. intros kd v k a Hk Hv.
      apply KIShare. exists kd, k. split; [exact F|]. split; [exact Hk|]. exists v, a. left. split; [reflexivity|]. split; [reflexivity|exact Hv].
    + apply fkeep_off. intros t. now apply islot_ISpEcdhShares_off.
  - destruct feat_sp eqn:F.
    + apply (fkeep_types _ (eq x1e)); [intros t; now apply islot_ISpDleqProofs|]. apply sp_fkeep. intros kd v k a Hk Hv.
      apply KIShare. exists kd, k. split; [exact F|]. split; [exact Hk|]. exists v, v. right. split; [reflexivity|].
      apply dleq_try_inv in Hv as ->. reflexivity.
    + apply fkeep_off. intros t. now apply islot_ISpDleqProofs_off.
Qed.

Lemma okeep f : ospecial f = false -> fkeep kept_out (fun t => oslot t = f) (oupd f) (ofpairs f).
Proof.
  assert (S : forall p, kept_out p p) by (intros p; apply KO0, KO0Same).
  destruct f; cbn [oupd ofpairs oty]; intros Hs; try discriminate Hs;
    try (apply fraw_keep; [exact S|first [exact oraw_OProprietaries|exact oraw_OUnknowns]]).
  - apply (fkeep_types _ (eq x00)); [intros t; apply oslot_ORedeemScript|]. apply fraw_keep; [exact S|]. apply opt_fraw. apply script_canonical.
  - apply (fkeep_types _ (eq x01)); [intros t; apply oslot_OWitnessScript|]. apply fraw_keep; [exact S|]. apply opt_fraw. apply script_canonical.
  - apply (fkeep_types _ (eq x02)); [intros t; apply oslot_OBip32|]. apply map_fkeep. intros kd v k a Hk Hv. rewrite (keysource_canonical _ _ Hv). exact (KO0 _ _ (KO0Key _ _ _ (secp_kept _ _ Hk))).
  - apply (fkeep_types _ (eq x05)); [intros t; apply oslot_OTapInternalKey|]. apply fraw_keep; [exact S|]. apply opt_fraw. apply xonly_canonical.
  - apply (fkeep_types _ (eq x06)); [intros t; apply oslot_OTapTree|]. apply opt_fkeep. intros v a H. exact (KO0 _ _ (taptree_kept _ _ H)).
  - apply (fkeep_types _ (eq x07)); [intros t; apply oslot_OTapKeyOrigins|]. apply fraw_keep; [exact S|]. apply map_fraw; [apply xonly_canonical|apply taporigin_canonical].
  - destruct feat_sp eqn:F.
    + apply (fkeep_types _ (eq x09)); [intros t; now apply oslot_OSpInfo|]. apply fraw_keep; [exact S|]. apply info_fraw.
    + apply fkeep_off. intros t. now apply oslot_OSpInfo_off.
  - destruct feat_sp eqn:F.
    + apply (fkeep_types _ (eq x0a)); [intros t; now apply oslot_OSpLabel|]. apply fraw_keep; [exact S|]. apply label_fraw.
    + apply fkeep_off. intros t. now apply oslot_OSpLabel_off.
Qed.


Lemma input_rewritten l i : input_acc l i -> rewritten kept_in [] (last_only x0e (last_only x0f l)) (input_pairs i).
Proof.
  intros (_ & H & Hc). rewrite ipairs_eq.
  assert (E : flat_map (fun _ : ifield => @nil pair) iorder = []) by reflexivity. rewrite <- E.
  apply (frame_kept ifield_dec (slot := islot) iorder_nodup iorder_all). intros f.
  pose proof (frame_fields _ _ _ ifield_dec _ _ _ iframe _ _ _ H f) as Q.
  destruct (ispecial f) eqn:Es.
  2:{ rewrite (slot_other _ _ IPreviousTxid) by (apply islot_IPreviousTxid || now intros ->).
      rewrite (slot_other _ _ ISpentOutputIndex) by (apply islot_ISpentOutputIndex || now intros ->).
      apply (keep_rewritten _ (fun t => islot t = f) (iupd f) _ (iget f input_invalid)); [now apply ikeep| |apply slot_forall|exact Q].
      destruct f; try discriminate Es; cbn; now destruct feat_sp. }
  unfold input_check in Hc. destruct (bytes_eqb (in_previous_txid i) TXID_ZERO) eqn:C1; [discriminate|].
  destruct (in_spent_output_index i =? U32_MAX) eqn:C2; [discriminate|].
  destruct f; try discriminate Es; cbn [iupd iget ifpairs] in *.
  - rewrite (slot_last _ _ _ _ _ islot_IPreviousTxid), (slot_other _ _ ISpentOutputIndex) by (apply islot_ISpentOutputIndex || discriminate).
    pose proof (placeholder_rewritten kept_in x0e _ (de_hash 32) ser_hash TXID_ZERO _ _ (hash_canonical 32)
      (fun kd v => KIKey x0e kd v (or_introl eq_refl)) (slot_types _ _ _ _ l islot_IPreviousTxid) Q) as G.
    destruct (filter _ l) as [|p l'] eqn:Ef; [|exact G]. cbn [ins_all] in Q. injection Q as Q. rewrite <- Q in C1. discriminate C1.
  - rewrite (slot_other _ _ IPreviousTxid) by (apply islot_IPreviousTxid || discriminate). rewrite (slot_last _ _ _ _ _ islot_ISpentOutputIndex).
    pose proof (placeholder_rewritten kept_in x0f _ de_u32 ser_u32 U32_MAX _ _ u32_canonical
      (fun kd v => KIKey x0f kd v (or_intror eq_refl)) (slot_types _ _ _ _ l islot_ISpentOutputIndex) Q) as G.
    destruct (filter _ l) as [|p l'] eqn:Ef; [|exact G]. cbn [ins_all] in Q. injection Q as Q. rewrite <- Q in C2. discriminate C2.
Qed.

Lemma output_rewritten l o : output_acc l o ->
  rewritten kept_out (if lacks x04 l then [Pair (Key x04 []) []] else []) (last_only x03 (last_only x04 l)) (output_pairs o).
Proof.
  intros (_ & H & Hc). rewrite opairs_eq.
  set (ex := fun f => match f with OScriptPubkey => if lacks x04 l then [Pair (Key x04 []) []] else [] | _ => [] end).
  assert (E : flat_map ex oorder = if lacks x04 l then [Pair (Key x04 []) []] else []).
  { unfold ex. cbn [flat_map oorder app]. apply app_nil_r. }
  rewrite <- E.
  apply (frame_kept ofield_dec (slot := oslot) oorder_nodup oorder_all). intros f.
  pose proof (frame_fields _ _ _ ofield_dec _ _ _ oframe _ _ _ H f) as Q.
  destruct (ospecial f) eqn:Es.
  2:{ assert (Ee : ex f = []) by now destruct f. rewrite Ee.
      rewrite (slot_other _ _ OAmount) by (apply oslot_OAmount || now intros ->).
      rewrite (slot_other _ _ OScriptPubkey) by (apply oslot_OScriptPubkey || now intros ->).
      apply (keep_rewritten _ (fun t => oslot t = f) (oupd f) _ (oget f output_invalid)); [now apply okeep| |apply slot_forall|exact Q].
      destruct f; try discriminate Es; cbn; now destruct feat_sp. }
  unfold output_check in Hc. destruct (out_amount o =? 0) eqn:C1; [discriminate|].
  destruct f; try discriminate Es; cbn [oupd oget ofpairs ex] in *.
  - rewrite (slot_last _ _ _ _ _ oslot_OAmount), (slot_other _ _ OScriptPubkey) by (apply oslot_OScriptPubkey || discriminate).
    pose proof (placeholder_rewritten kept_out x03 _ de_amount ser_amount 0 _ _ amount_canonical
      (fun kd v => KOKey x03 kd v (or_introl eq_refl)) (slot_types _ _ _ _ l oslot_OAmount) Q) as G.
    destruct (filter _ l) as [|p l'] eqn:Ef; [|exact G]. cbn [ins_all] in Q. injection Q as Q. rewrite <- Q in C1. discriminate C1.
  - rewrite (slot_other _ _ OAmount) by (apply oslot_OAmount || discriminate). rewrite (slot_last _ _ _ _ _ oslot_OScriptPubkey).
    pose proof (placeholder_rewritten kept_out x04 _ de_script ser_script [] _ _ script_canonical
      (fun kd v => KOKey x04 kd v (or_intror eq_refl)) (slot_types _ _ _ _ l oslot_OScriptPubkey) Q) as G.
    rewrite <- lacks_filter, <- (slot_filter ofield_dec oslot OScriptPubkey x04) by apply oslot_OScriptPubkey. exact G.
Qed.

Lemma gkeep f : gspecial f = false -> fkeep kept_global (fun t => gslot t = f) (gupd f) (gfpairs f).
Proof.
  assert (S : forall p, kept_global p p) by exact KGSame.
  destruct f; cbn [gupd gfpairs gty]; intros Hs; try discriminate Hs;
    try (apply fraw_keep; [exact S|first [exact graw_GProprietaries|exact graw_GUnknowns]]).
  - apply fraw_keep; [exact S|]. apply (fraw_types (eq xfb)); [intros t; apply gslot_GVersion|].
    apply (fraw_equiv _ (ins_opt de_gversion)); [intros p a a' _; apply gins_version_equiv|].
    apply opt_fraw. intros b a H. unfold de_gversion in H. binds H. destruct (x =? 2); [|discriminate]. inj H. now apply u32_canonical.
  - apply fraw_keep; [exact S|]. apply (fraw_types (eq x02)); [intros t; apply gslot_GTxVersion|].
    apply (fraw_equiv _ (ins_opt de_u32)); [intros p a a' _; apply gins_u32_equiv|]. apply opt_fraw, u32_canonical.
  - apply fraw_keep; [exact S|]. apply (fraw_types (eq x03)); [intros t; apply gslot_GFallback|].
    apply (fraw_equiv _ (ins_opt de_u32)); [intros p a a' _; apply gins_u32_equiv|]. apply opt_fraw, u32_canonical.
  - apply fraw_keep; [exact S|]. apply (fraw_types (eq x06)); [intros t; apply gslot_GFlags|].
    apply (fraw_equiv _ (ins_opt de_gflags)); [intros p a a' _; apply gins_flags_equiv|].
    apply opt_fraw. intros b a H. unfold de_gflags in H. destruct b as [|x [|y b]]; try discriminate. inj H. unfold ser_gflags. now rewrite n2b_b2n.
  - apply fraw_keep; [exact S|]. apply (fraw_types (eq x01)); [intros t; apply gslot_GXpubs|].
    apply (fraw_equiv _ (ins_map sk_xpub dek_xpub de_keysource)); [intros p a a' _; apply gins_xpub_equiv|].
    apply map_fraw; [|apply keysource_canonical]. intros b a H. unfold dek_xpub in H. apply ok_or_ok in H. now apply de_xpub_wf in H.
  - destruct feat_sp eqn:F.
    + apply (fkeep_types _ (eq x07)); [intros t; now apply gslot_GSpEcdhShares|]. apply sp_fkeep. intros kd v k a Hk Hv.
      apply KGShare. exists kd, k. split; [exact F|]. split; [exact Hk|]. exists v, a. left. split; [reflexivity|]. split; [reflexivity|exact Hv].
    + apply fkeep_off. intros t. now apply gslot_GSpEcdhShares_off.
  - destruct feat_sp eqn:F.
    + apply (fkeep_types _ (eq x08)); [intros t; now apply gslot_GSpDleqProofs|]. apply sp_fkeep. intros kd v k a Hk Hv.
      apply KGShare. exists kd, k. split; [exact F|]. split; [exact Hk|]. exists v, v. right. split; [reflexivity|].
      apply dleq_try_inv in Hv as ->. reflexivity.
    + apply fkeep_off. intros t. now apply gslot_GSpDleqProofs_off.
Qed.

Lemma gcounts_done l : forall a b c, ins_all gcounts_upd l (a, Some b) = Ok c -> l = [] /\ c = (a, Some b).
Proof.
  destruct l as [|p l]; intros a b c H; cbn [ins_all] in H.
  - inj H. auto.
  - binds H. exfalso. unfold gcounts_upd, gins_input_count, gins_output_count in Hx. cbn [snd is_none] in Hx.
    destruct (beq _ _), (is_empty _); discriminate.
Qed.
Lemma gcount_kept t p n r : t = x04 \/ t = x05 -> ptype p = t -> is_empty (k_data (p_key p)) = true -> dec_varint (p_value p) = Ok (n, r) ->
  kept_global p (Pair (Key t []) (ser_varint n)).
Proof.
  intros Ht Hp He Hd. apply dec_varint_canon in Hd as [E W]. apply is_empty_nil in He. destruct p as [[kt kd] v]. cbn in *. subst.
  apply (KGCount _ n); [exact Ht|]. now apply size_wire.
Qed.
Lemma gcounts_rewritten l ic oc : Forall (fun p => x04 = ptype p \/ x05 = ptype p) l -> forall a,
  ins_all gcounts_upd l (a, None) = Ok (Some ic, Some oc) ->
  let seen := existsb (fun q => beq (k_type (p_key q)) x04) l in
  rewritten kept_global [] (last_only x04 l) (if seen then gcounts_pairs (Some ic, Some oc) else [Pair (Key x05 []) (ser_varint oc)])
  /\ (seen = false -> a = Some ic).
Proof.
  intros F. induction F as [|p l Fp F IH]; intros a H; cbn [ins_all] in H; [discriminate|]. binds H. cbn [existsb last_only].
  unfold gcounts_upd in Hx. change (k_type (p_key p)) with (ptype p). destruct (beq (ptype p) x04) eqn:E4; cbn [orb andb].
  - unfold gins_input_count in Hx. destruct (is_empty (k_data (p_key p))) eqn:Ep; [|discriminate]. cbn [snd is_none fst] in Hx. binds Hx.
    injection Hx as <- <-. apply map_err_ok in Hx0. destruct (IH _ H) as [G1 G2]. split; [|discriminate].
    destruct (existsb _ l); [exact G1|]. specialize (G2 eq_refl). injection G2 as ->. destruct G1 as (k & K1 & K2).
    exists (Pair (Key x04 []) (ser_varint ic) :: k). split.
    + constructor; [|exact K1]. apply beq_eq in E4. eapply (gcount_kept x04 p); eauto.
    + unfold gcounts_pairs. cbn [opt_pairs fst snd app]. now constructor.
  - unfold gins_output_count in Hx. destruct (is_empty (k_data (p_key p))) eqn:Ep; [|discriminate]. cbn [snd is_none fst] in Hx. binds Hx.
    injection Hx as <- <-. apply map_err_ok in Hx0. apply gcounts_done in H as [-> H]. injection H as E1 E2. cbn [existsb last_only].
    split; [|now intros _]. subst n. exists [Pair (Key x05 []) (ser_varint oc)]. split; [|reflexivity]. constructor; [|constructor].
    eapply (gcount_kept x05 p); eauto. destruct Fp as [Fp|Fp]; [|now symmetry]. rewrite <- Fp in E4. discriminate.
Qed.

Lemma global_rewritten l g : global_acc l g ->
  rewritten kept_global (if lacks x06 l then [Pair (Key x06 []) [x00]] else []) (last_only x04 l) (global_pairs g).
Proof.
  intros (_ & d & H & Hc). rewrite gpairs_eq.
  apply global_check_iff in Hc as (v & tv & ic & oc & Gv & Gt & Gc & _ & _ & _ & ->).
  set (ex := fun f => match f with GFlags => if lacks x06 l then [Pair (Key x06 []) [x00]] else [] | _ => [] end).
  assert (E : flat_map ex gorder = if lacks x06 l then [Pair (Key x06 []) [x00]] else []).
  { unfold ex. cbn [flat_map gorder app]. apply app_nil_r. }
  rewrite <- E.
  apply (frame_kept gfield_dec (slot := gslot) gorder_nodup gorder_all). intros f.
  pose proof (frame_fields _ _ _ gfield_dec _ _ _ gframe _ _ _ H f) as Q.
  destruct (gspecial f) eqn:Es.
  { destruct f; try discriminate Es. cbn [gupd gget gfpairs ex] in *. rewrite Gc in Q.
    rewrite last_only_comm by (intros p Hp; apply beq_eq in Hp; apply of_slot_true, gslot_GCounts; left; now symmetry).
    assert (Fl : Forall (fun p => x04 = ptype p \/ x05 = ptype p) (filter (of_slot gfield_dec gslot GCounts) l)).
    { eapply Forall_impl; [|apply slot_forall]. intros p Hp. now apply gslot_GCounts. }
    destruct (gcounts_rewritten _ _ _ Fl _ Q) as [G1 G2]. destruct (existsb _ (filter _ l)); [exact G1|]. specialize (G2 eq_refl). discriminate. }
  rewrite last_only_other.
  2:{ intros p Hp. apply beq_eq in Hp. destruct (of_slot _ _ _ _) eqn:E2; [|reflexivity]. apply of_slot_true in E2.
      assert (E3 : gslot (ptype p) = GCounts) by (apply gslot_GCounts; left; now symmetry). rewrite E3 in E2. subst f. discriminate. }
  assert (K : rewritten kept_global [] (filter (of_slot gfield_dec gslot f) l) (gfpairs f (gget f d))).
  { apply (keep_rewritten _ (fun t => gslot t = f) (gupd f) _ (gget f gdec_init)); [now apply gkeep| |apply slot_forall|exact Q].
    destruct f; try discriminate Es; cbn; now destruct feat_sp. }
  destruct f; try discriminate Es; cbn [ex gget gfpairs to_gdec gd_version gd_tx_version gd_fallback_lock_time gd_tx_modifiable_flags gd_xpubs
    gd_sp_ecdh_shares gd_sp_dleq_proofs gd_proprietaries gd_unknowns g_version g_tx_version g_fallback_lock_time g_tx_modifiable_flags
    g_xpubs g_sp_ecdh_shares g_sp_dleq_proofs g_proprietaries g_unknowns] in *; rewrite ?Gv, ?Gt in K; try exact K.
  rewrite <- lacks_filter, <- (slot_filter gfield_dec gslot GFlags x06) by apply gslot_GFlags.
  destruct K as (k & F2 & P). destruct (gd_tx_modifiable_flags d) as [n|]; cbn [opt_default opt_pairs] in *.
  - destruct (filter _ l) as [|p l']; cbn [is_empty]; [|exists k; auto].
    inversion F2; subst. rewrite app_nil_r in P. apply Permutation_sym, Permutation_nil in P. discriminate.
  - rewrite app_nil_r in P. apply Permutation_nil in P. subst k. inversion F2; subst. cbn [is_empty].
    exists []. split; [constructor|reflexivity].
Qed.

End Facts.

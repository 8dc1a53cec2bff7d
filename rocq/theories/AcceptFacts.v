(** Which byte strings the decoders accept. *)
From Coq Require Import List.
From Verif Require Import Base OMap Consensus ConsensusFacts Ext Raw RawFacts TapTree TapTreeFacts
  Serialize SerializeFacts MapCodec MapFacts V2Global V2Input V2InputFacts V2GlobalFacts V2Output V2OutputFacts
  V2Psbt V2PsbtFacts V2CodecFacts V2WireFacts V2PairFacts SpecCodec SpecCodecFacts SpecPsbt
  V0Error V0Input V0Output V0Psbt V0GlobalFacts V0InputFacts V0OutputFacts V0PsbtFacts V0WireFacts SpecErrors ErrorFacts DecodeErrorFacts SpecAccept.
Local Open Scope N_scope.

(** ** Fields *)

(** What a field accepts: pairs that [fit], and of which none before it clashes. *)
Definition reads {A} (types : byte -> Prop) (upd : pair -> A -> res ierr A) (a0 : A)
    (fit : pair -> Prop) (clash : pair -> pair -> Prop) : Prop :=
  exists has : pair -> A -> Prop,
    (forall q, ~ has q a0) /\
    (forall p a a', types (ptype p) -> wf_pair p -> upd p a = Ok a' ->
       fit p /\ ~ has p a /\ forall q, types (ptype q) -> (has q a' <-> has q a \/ clash p q)) /\
    (forall p a, types (ptype p) -> wf_pair p -> fit p -> ~ has p a -> exists a', upd p a = Ok a').

Lemma reads_iff {A} (types : byte -> Prop) (upd : pair -> A -> res ierr A) a0 fit clash : reads types upd a0 fit clash ->
  forall l, Forall (fun p => types (ptype p)) l -> Forall wf_pair l ->
  ((exists a, ins_all upd l a0 = Ok a) <-> Forall fit l /\ ForallOrdPairs (fun p q => ~ clash p q) l).
Proof.
  intros (has & H0 & H1 & H2) l T W.
  assert (G : forall a, (exists a', ins_all upd l a = Ok a')
    <-> (Forall fit l /\ ForallOrdPairs (fun p q => ~ clash p q) l) /\ forall q, In q l -> ~ has q a).
  { clear H0 a0. induction l as [|p l IH]; intros a.
    - split; [|cbn; eauto]. intros _. repeat split; constructor || intros q [].
    - apply Forall_cons_iff in T as [Tp T]. apply Forall_cons_iff in W as [Wp W]. specialize (IH T W). cbn [ins_all]. split.
      + intros (a' & H). binds H. destruct (H1 _ _ _ Tp Wp Hx) as (F & N & E).
        destruct (proj1 (IH x)) as ((F1 & F2) & F3); [eauto|].
        split.
        * split; constructor; auto. apply Forall_forall. intros q Hq C. apply (F3 q Hq). apply E; [|now right].
          rewrite Forall_forall in T. auto.
        * intros q [<-|Hq]; [exact N|]. intros C. apply (F3 q Hq). apply E; [|now left]. rewrite Forall_forall in T. auto.
      + intros ((F1 & F2) & F3). apply Forall_cons_iff in F1 as [Fp F1]. inversion F2 as [|? ? G1 G2]; subst.
        destruct (H2 p a Tp Wp Fp) as (a' & E); [apply F3; now left|]. rewrite E. cbn [bind]. apply IH. split; [now split|].
        intros q Hq C. destruct (H1 _ _ _ Tp Wp E) as (_ & _ & D). rewrite Forall_forall in G1, T.
        apply D in C as [C|C]; [|exact (G1 q Hq C)|auto]. apply (F3 q); [now right|exact C]. }
  rewrite (G a0). split; [tauto|]. intros H. split; [exact H|]. auto.
Qed.

Lemma reads_ext {A} (types types' : byte -> Prop) (upd : pair -> A -> res ierr A) a0 (fit fit' : pair -> Prop) (clash clash' : pair -> pair -> Prop) :
  (forall t, types' t -> types t) ->
  (forall p, types' (ptype p) -> (fit' p <-> fit p)) ->
  (forall p q, types' (ptype p) -> types' (ptype q) -> (clash' p q <-> clash p q)) ->
  reads types upd a0 fit clash -> reads types' upd a0 fit' clash'.
Proof.
  intros Ht Hf Hc (has & H0 & H1 & H2). exists has. split; [exact H0|]. split.
  - intros p a a' T W U. destruct (H1 _ _ _ (Ht _ T) W U) as (F & N & E). split; [now apply Hf|]. split; [exact N|].
    intros q Tq. rewrite (Hc p q T Tq). apply E. auto.
  - intros p a T W F N. apply H2; auto. now apply Hf.
Qed.

Section Facts.
Context `{X : Ext} {L : ExtLaws X} `{C : Cfg}.

Lemma opt_reads {A} t w (de : bytes -> res serr A) :
  reads (eq t) (ins_opt de) None (fits (HValue de)) (same_key (HValue de) w).
Proof.
  exists (fun _ a => is_some a = true). split; [discriminate|]. unfold ins_opt. split.
  - intros p a a' _ _ H. destruct (is_empty (k_data (p_key p))) eqn:E; [|discriminate]. apply is_empty_nil in E.
    destruct a; [discriminate|]. binds H. inj H. apply map_err_ok in Hx. split; [split; eauto|]. split; [discriminate|].
    intros q _. cbn. tauto.
  - intros p a _ _ [F (v & D)] N. rewrite F. cbn [is_empty]. destruct a; [now destruct N|]. rewrite D. cbn. eauto.
Qed.

Lemma place_reads {A} t w (isp : A -> bool) (de : bytes -> res serr A) a0 : isp a0 = true ->
  (forall v a, de v = Ok a -> (isp a = true <-> v = w)) ->
  reads (eq t) (ins_placeholder isp de) a0 (fits (HPlace de)) (same_key (HPlace de) w).
Proof.
  intros P0 Hw. exists (fun _ a => isp a = false). split; [congruence|]. unfold ins_placeholder. split.
  - intros p a a' _ _ H. destruct (isp a) eqn:E; cbn [negb] in H; [|discriminate]. apply map_err_ok in H.
    split; [cbn; eauto|]. split; [discriminate|]. intros q _. cbn. pose proof (Hw _ _ H) as K. destruct (isp a').
    + split; [discriminate|]. intros [Z|Z]; [discriminate|]. exfalso. apply Z, K. reflexivity.
    + split; [|reflexivity]. intros _. right. intros Z. apply K in Z. discriminate.
  - intros p a _ _ (v & D) N. destruct (isp a); [|now destruct N]. cbn [negb]. rewrite D. cbn. eauto.
Qed.

Lemma mem_dec {K V} sk (k : K) (m : list (K * V)) : m_mem sk k m <> true -> m_mem sk k m = false.
Proof. destruct (m_mem sk k m); congruence. Qed.
Lemma mem_put {K V} (sk : K -> list N) (sk_inj : forall a b, sk a = sk b -> a = b) k k' (v : V) m :
  m_mem sk k' (m_put sk k v m) = true <-> m_mem sk k' m = true \/ k = k'.
Proof.
  destruct (m_mem sk k' (m_put sk k v m)) eqn:E.
  - split; [|reflexivity]. intros _. destruct (m_mem sk k' m) eqn:E2; [now left|right].
    apply (m_mem_in sk sk_inj), (m_put_keys sk sk_inj) in E as [E|E]; [congruence|]. apply (m_mem_in sk sk_inj) in E. congruence.
  - apply (m_mem_put_false sk sk_inj) in E as [E1 E2]. split; [discriminate|]. intros [E|E]; congruence.
Qed.

Lemma map_reads {K V} t w (sk : K -> list N) (sk_inj : forall a b, sk a = sk b -> a = b) (dek : bytes -> res serr K) (dev : bytes -> res serr V) :
  reads (eq t) (ins_map sk dek dev) [] (fits (HMap dek dev)) (same_key (HMap dek dev) w).
Proof.
  exists (fun q m => exists k, dek (k_data (p_key q)) = Ok k /\ m_mem sk k m = true).
  split; [intros q (k & _ & E); discriminate|]. split.
  - intros p a a' _ _ H. pose proof (ins_map_nonempty _ _ _ _ _ _ H) as Ne. apply ins_map_inv in H as (k & v & D1 & D2 & M & ->).
    split; [cbn; eauto|]. split; [intros (k' & E & Q); congruence|].
    intros q _. cbn. split.
    + intros (k' & E & Q). apply (mem_put _ sk_inj) in Q as [Q|Q]; [left; eauto|right; subst; eauto].
    + intros [(k' & E & Q)|(k' & E & Q)]; exists k'.
      * split; [exact E|]. apply (mem_put _ sk_inj). now left.
      * split; [exact Q|]. apply (mem_put _ sk_inj). right. congruence.
  - intros p a _ _ (F1 & (k & F2) & (v & F3)) N. exists (m_put sk k v a). apply ins_map_intro; auto. apply mem_dec. eauto.
Qed.

Lemma key_of t (p q : pair) : t = ptype p -> t = ptype q -> (p_key p = p_key q <-> k_data (p_key p) = k_data (p_key q)).
Proof.
  unfold ptype. destruct (p_key p) as [a d], (p_key q) as [b d']. cbn. intros -> <-. split; [congruence|now intros ->].
Qed.

Lemma hash_reads t w n (h : bytes -> bytes) ht : (0 < n <= 32)%nat ->
  reads (eq t) (ins_hash (N.of_nat n) h ht) [] (fits (HPreimage (N.of_nat n) h ht)) (same_key (HPreimage (N.of_nat n) h ht) w).
Proof.
  intros Hn. exists (fun q m => m_mem bkey (k_data (p_key q)) m = true). split; [discriminate|]. split.
  - intros p a a' Tp _ H. apply ins_hash_inv in H as (_ & H1 & H2 & H3 & ->); [|exact Hn]. split; [cbn; unfold blen; split; [lia|now symmetry]|].
    split; [congruence|]. intros q Tq. rewrite (mem_put _ bkey_inj). cbn [same_key]. rewrite (key_of t p q Tp Tq). reflexivity.
  - intros p a _ _ (F1 & F2) N. eexists. apply ins_hash_intro; [exact Hn|unfold blen in F1; lia|now symmetry|now apply mem_dec].
Qed.

Lemma sp_reads t w dev n : reads (eq t) (ins_sp dev n) [] (fits (HShare dev n)) (same_key (HShare dev n) w).
Proof.
  exists (fun q m => exists k, secp_parse (k_data (p_key q)) = Some k /\ m_mem bkey k m = true).
  split; [intros q (k & _ & E); discriminate|]. unfold ins_sp, de_cpk. split.
  - intros p a a' _ _ H. destruct (is_empty (k_data (p_key p))) eqn:E; [discriminate|]. binds H. apply ok_or_ok in Hx, Hx0.
    destruct (m_mem bkey x a) eqn:M; [discriminate|]. inj H.
    split; [cbn; split; [now apply nonempty_ne|eauto]|]. split; [intros (k' & E' & Q); congruence|].
    intros q _. cbn. split.
    + intros (k' & E' & Q). apply (mem_put _ bkey_inj) in Q as [Q|Q]; [left; eauto|right; subst; eauto].
    + intros [(k' & E' & Q)|(k' & E' & Q)]; exists k'.
      * split; [exact E'|]. apply (mem_put _ bkey_inj). now left.
      * split; [exact Q|]. apply (mem_put _ bkey_inj). right. congruence.
  - intros p a _ _ (F1 & (k & F2) & (v & F3)) N. destruct (is_empty (k_data (p_key p))) eqn:E; [now apply is_empty_nil in E|].
    rewrite F2, F3. cbn [ok_or bind]. rewrite (mem_dec bkey k a); eauto.
Qed.

Lemma unknown_reads types : reads types ins_unknown [] (fun _ => True) (fun p q => p_key p = p_key q).
Proof.
  exists (fun q m => m_mem sk_key (p_key q) m = true). split; [discriminate|]. unfold ins_unknown. split.
  - intros p a a' _ _ H. destruct (m_mem sk_key (p_key p) a) eqn:M; [discriminate|]. inj H. split; [exact Logic.I|]. split; [congruence|].
    intros q _. apply (mem_put _ sk_key_inj).
  - intros p a _ _ _ N. rewrite (mem_dec _ _ _ N). eauto.
Qed.

Lemma guarded_reads types (excl : byte -> bool) e :
  reads types (guarded excl e ins_unknown) [] (fun p => excl (ptype p) = false) (fun p q => p_key p = p_key q).
Proof.
  destruct (unknown_reads types) as (has & H0 & H1 & H2). exists has. split; [exact H0|]. unfold guarded. split.
  - intros p a a' T W H. destruct (excl (ptype p)) eqn:E; [discriminate|]. split; [reflexivity|]. exact (proj2 (H1 _ _ _ T W H)).
  - intros p a T W F N. rewrite F. now apply H2.
Qed.

Lemma propkey_fits p : ptype p = xfc -> wf_pair p -> ((exists k, propkey_try_from (p_key p) = Ok k) <-> fits (HProp false) p).
Proof.
  intros T W. cbn. split.
  - intros (k & H). apply propkey_try_from_inv in H as (E & B). exists k. rewrite E. split; [|exact B].
    destruct W as [W _]. unfold wf_key in W. rewrite E in W. cbn [k_data propkey_to_key] in *. apply enc_propkey_spec.
    unfold enc_propkey, enc_bytes in W. rewrite !blen_app in W. unfold MAX_VEC_SIZE in W. lia.
  - intros (k & (pl & H1 & H2) & B). exists k. unfold propkey_try_from. unfold ptype in T. rewrite T. cbn.
    assert (E : k_data (p_key p) = enc_propkey k).
    { apply compact_size_enc in H1 as [-> _]. rewrite H2. unfold enc_propkey, enc_bytes. now rewrite <- app_assoc. }
    rewrite E, dec_propkey_de; [reflexivity|]. split; [|exact B]. destruct W as [W _]. unfold wf_key in W. now rewrite E in W.
Qed.

Lemma prop_reads w err : reads (eq xfc) (ins_prop err) [] (fits (HProp false)) (same_key (HProp false) w).
Proof.
  exists (fun q m => exists k, propkey_try_from (p_key q) = Ok k /\ m_mem sk_propkey k m = true).
  split; [intros q (k & _ & E); discriminate|]. unfold ins_prop. split.
  - intros p a a' T W H. binds H. apply map_err_ok in Hx. destruct (m_mem sk_propkey x a) eqn:M; [discriminate|]. inj H.
    split; [apply propkey_fits; eauto|]. split; [intros (k' & E' & Q); congruence|].
    intros q Tq. cbn. split.
    + intros (k' & E' & Q). apply (mem_put _ sk_propkey_inj) in Q as [Q|Q]; [left; eauto|right]. subst k'.
      apply propkey_try_from_inv in Hx as (-> & _). now apply propkey_try_from_inv in E' as (-> & _).
    + intros [(k' & E' & Q)|Q].
      * exists k'. split; [exact E'|]. apply (mem_put _ sk_propkey_inj). now left.
      * exists x. rewrite <- Q. split; [exact Hx|]. apply (mem_put _ sk_propkey_inj). now right.
  - intros p a T W F N. apply propkey_fits in F as (k & F); auto. rewrite F. cbn [map_err bind]. rewrite (mem_dec sk_propkey k a); eauto.
Qed.
Lemma gprop_reads w : reads (eq xfc) gins_prop [] (fits (HProp true)) (same_key (HProp true) w).
Proof.
  destruct (prop_reads w (fun _ => IInvalidProprietaryKey)) as (has & H0 & H1 & H2). exists has. split; [exact H0|]. unfold gins_prop. split.
  - intros p a a' T W H. destruct (is_empty _); [discriminate|]. exact (H1 _ _ _ T W H).
  - intros p a T W F N. destruct (is_empty (k_data (p_key p))) eqn:E; [|now apply H2].
    exfalso. apply is_empty_nil in E. destruct F as (k & (pl & F1 & F2) & _). rewrite E in F2. destruct pl; [|discriminate].
    inversion F1.
Qed.

(** Fields with one value. *)
Lemma once_reads {A} t (upd : pair -> option A -> res ierr (option A)) (fit : pair -> Prop) clash :
  (forall p q, clash p q <-> True) ->
  (forall p a a', wf_pair p -> upd p a = Ok a' -> a = None /\ fit p /\ a' <> None) ->
  (forall p, wf_pair p -> fit p -> exists a', upd p None = Ok a') ->
  reads (eq t) upd None fit clash.
Proof.
  intros Hc H1 H2. exists (fun _ a => a <> None). split; [congruence|]. split.
  - intros p a a' _ W H. destruct (H1 _ _ _ W H) as (-> & F & N). split; [exact F|]. split; [congruence|]. intros q _. rewrite Hc. tauto.
  - intros p a _ W F N. destruct a; [now destruct N|]. auto.
Qed.

Lemma two_bytes v (n : N) (w : bytes) : w = le_enc 4 n -> n < U32 -> (blen v =? 4) && (le_dec v =? n) = true <-> v = w.
Proof.
  intros -> Hn. rewrite andb_true_iff. split.
  - intros [B E]. apply N.eqb_eq in E. rewrite <- E. exact (proj1 (le4 _ B)).
  - intros ->. split; [reflexivity|]. rewrite le_dec_enc by exact Hn. apply N.eqb_refl.
Qed.

Lemma version_reads t w : reads (eq t) gins_version None (fits HVersion) (same_key HVersion w).
Proof.
  apply once_reads; [cbn; tauto|unfold gins_version|unfold gins_version].
  - intros p a a' _ H. destruct (is_empty _) eqn:E; [|discriminate]. apply is_empty_nil in E. destruct a; cbn [is_none is_some negb] in H; [discriminate|].
    destruct (blen (p_value p) =? 4) eqn:B; cbn [negb fail_if bind] in H; [|discriminate].
    rewrite dec_u32_four in H by exact B. cbn [map_err bind] in H. destruct (le_dec (p_value p) =? 2) eqn:V; cbn [negb fail_if bind] in H; [|discriminate].
    inj H. split; [reflexivity|]. split; [|discriminate]. split; [exact E|]. apply (two_bytes _ 2); [reflexivity|reflexivity|]. now rewrite B, V.
  - intros p _ (F1 & F2). rewrite F1, F2. eexists. vm_compute. reflexivity.
Qed.
Lemma version0_reads t w : reads (eq t) g0ins_version None (fits HVersion0) (same_key HVersion0 w).
Proof.
  apply once_reads; [cbn; tauto|unfold g0ins_version|unfold g0ins_version].
  - intros p a a' _ H. destruct (is_empty _) eqn:E; [|discriminate]. apply is_empty_nil in E. destruct a; cbn [is_none is_some negb] in H; [discriminate|].
    destruct (blen (p_value p) =? 4) eqn:B; cbn [negb fail_if bind] in H; [|discriminate].
    rewrite dec_u32_four in H by exact B. cbn [map_err bind] in H. destruct (le_dec (p_value p) =? 0) eqn:V; cbn [negb fail_if bind] in H; [|discriminate].
    inj H. split; [reflexivity|]. split; [|discriminate]. split; [exact E|]. apply (two_bytes _ 0); [reflexivity|reflexivity|]. now rewrite B, V.
  - intros p _ (F1 & F2). rewrite F1, F2. eexists. vm_compute. reflexivity.
Qed.
Lemma u32_reads t w : reads (eq t) gins_u32 None (fits (HFixed 4)) (same_key (HFixed 4) w).
Proof.
  apply once_reads; [cbn; tauto|unfold gins_u32|unfold gins_u32].
  - intros p a a' _ H. destruct (is_empty _) eqn:E; [|discriminate]. apply is_empty_nil in E. destruct a; cbn [is_none is_some negb] in H; [discriminate|].
    destruct (blen (p_value p) =? 4) eqn:B; cbn [negb fail_if bind] in H; [|discriminate].
    rewrite dec_u32_four in H by exact B. cbn [map_err bind] in H. inj H.
    split; [reflexivity|]. split; [|discriminate]. split; [exact E|]. now apply N.eqb_eq.
  - intros p _ (F1 & F2). apply N.eqb_eq in F2. rewrite F1. cbn [is_empty is_none is_some negb]. rewrite F2. cbn [negb fail_if bind].
    rewrite dec_u32_four by exact F2. eexists. reflexivity.
Qed.
Lemma flags_reads t w : reads (eq t) gins_flags None (fits (HFixed 1)) (same_key (HFixed 1) w).
Proof.
  apply once_reads; [cbn; tauto|unfold gins_flags|unfold gins_flags].
  - intros p a a' _ H. destruct (is_empty _) eqn:E; [|discriminate]. apply is_empty_nil in E. destruct a; cbn [is_none is_some negb] in H; [discriminate|].
    destruct (blen (p_value p) =? 1) eqn:B; cbn [negb fail_if bind] in H; [|discriminate]. binds H. inj H.
    split; [reflexivity|]. split; [|discriminate]. split; [exact E|]. now apply N.eqb_eq.
  - intros p _ (F1 & F2). rewrite F1. cbn [is_empty is_none is_some negb]. destruct (p_value p) as [|b [|c r]]; [discriminate|eexists; reflexivity|].
    exfalso. unfold blen in F2. cbn [length] in F2. lia.
Qed.
Lemma tx0_reads t w : reads (eq t) g0ins_tx None (fits HTx0) (same_key HTx0 w).
Proof.
  apply once_reads; [cbn; tauto|unfold g0ins_tx|unfold g0ins_tx].
  - intros p a a' _ H. destruct (is_empty _) eqn:E; [|discriminate]. apply is_empty_nil in E. destruct a; cbn [is_none is_some negb] in H; [discriminate|].
    binds H. apply map_err_ok in Hx. inj H. split; [reflexivity|]. split; [|discriminate]. split; [exact E|eauto].
  - intros p _ (F1 & (t' & F2)). rewrite F1. cbn [is_empty is_none is_some negb]. rewrite F2. cbn. eauto.
Qed.
Lemma info_reads t w : reads (eq t) ins_sp_v0_info None (fits (HSilent 66)) (same_key (HSilent 66) w).
Proof.
  apply once_reads; [cbn; tauto|unfold ins_sp_v0_info|unfold ins_sp_v0_info].
  - intros p a a' _ H. destruct a; cbn [is_none is_some negb fail_if bind] in H; [discriminate|].
    destruct (is_empty _) eqn:E; cbn [negb fail_if bind] in H; [|discriminate]. apply is_empty_nil in E.
    destruct (blen (p_value p) =? 66) eqn:B; cbn [negb fail_if bind] in H; [|discriminate]. inj H.
    split; [reflexivity|]. split; [|discriminate]. split; [exact E|]. now apply N.eqb_eq.
  - intros p _ (F1 & F2). rewrite F1, F2. eexists. reflexivity.
Qed.
Lemma label_reads t w : reads (eq t) ins_sp_v0_label None (fits (HSilent 4)) (same_key (HSilent 4) w).
Proof.
  apply once_reads; [cbn; tauto|unfold ins_sp_v0_label|unfold ins_sp_v0_label].
  - intros p a a' _ H. destruct a; cbn [is_none is_some negb fail_if bind] in H; [discriminate|].
    destruct (is_empty _) eqn:E; cbn [negb fail_if bind] in H; [|discriminate]. apply is_empty_nil in E.
    destruct (blen (p_value p) =? 4) eqn:B; cbn [negb fail_if bind] in H; [|discriminate]. inj H.
    split; [reflexivity|]. split; [|discriminate]. split; [exact E|]. now apply N.eqb_eq.
  - intros p _ (F1 & F2). rewrite F1, F2. eexists. reflexivity.
Qed.

(** Extended keys. *)
Lemma xpub_reads_gen t sh w (upd : pair -> list (xpub * keysource) -> res ierr (list (xpub * keysource))) :
  (forall p, fits sh p <-> fits HXpub p) -> (forall p q, same_key sh w p q <-> same_key HXpub w p q) ->
  (forall p m m', ins_map sk_xpub dek_xpub de_keysource p m = Ok m' <-> upd p m = Ok m') ->
  (forall p m m', upd p m = Ok m' -> p_value p <> [] /\ blen (p_value p) mod 4 = 0) ->
  (forall p m, fits HXpub p -> (exists x, de_xpub (k_data (p_key p)) = Some x /\ m_get sk_xpub x m = None) -> exists m', upd p m = Ok m') ->
  reads (eq t) upd [] (fits sh) (same_key sh w).
Proof.
  intros Hf Hc Eq Hv Ex. exists (fun q m => exists x, de_xpub (k_data (p_key q)) = Some x /\ m_mem sk_xpub x m = true).
  split; [intros q (k & _ & E); discriminate|]. split.
  - intros p a a' _ _ H. pose proof (Hv _ _ _ H) as V. apply Eq in H. pose proof (ins_map_nonempty _ _ _ _ _ _ H) as Ne. apply ins_map_inv in H as (k & v & D1 & D2 & M & ->).
    unfold dek_xpub in D1. apply ok_or_ok in D1.
    split.
    { apply Hf. split; [exact Ne|]. split; [eauto|exact V]. }
    split; [intros (k' & E & Q); congruence|].
    intros q _. rewrite Hc. cbn. split.
    + intros (k' & E & Q). apply (mem_put _ sk_xpub_inj) in Q as [Q|Q]; [left; eauto|right; subst; eauto].
    + intros [(k' & E & Q)|(k' & E & Q)]; exists k'.
      * split; [exact E|]. apply (mem_put _ sk_xpub_inj). now left.
      * split; [exact Q|]. apply (mem_put _ sk_xpub_inj). right. congruence.
  - intros p a _ _ F N. apply Ex; [now apply Hf|]. apply Hf in F as (_ & (x & D) & _). exists x. split; [exact D|].
    destruct (m_get sk_xpub x a) eqn:G; [|reflexivity]. exfalso. apply N. exists x. unfold m_mem. now rewrite G.
Qed.
Lemma four_up (v : bytes) : v <> [] -> blen v mod 4 = 0 -> blen v <? 4 = false.
Proof.
  intros V M. destruct (blen v <? 4) eqn:B; [|reflexivity]. exfalso. apply N.ltb_lt in B. rewrite N.mod_small in M by exact B.
  destruct v; [now apply V|]. rewrite blen_cons in M. lia.
Qed.
Lemma xpub_reads t w : reads (eq t) gins_xpub [] (fits HXpub) (same_key HXpub w).
Proof.
  apply xpub_reads_gen; [reflexivity|reflexivity|exact gins_xpub_equiv| |]; unfold gins_xpub.
  - intros p m m' H. destruct (is_empty _); [discriminate|]. binds H. cbv zeta in H. destruct (is_empty (p_value p)) eqn:E; [discriminate|].
    cbn [fail_if bind] in H. destruct (blen (p_value p) <? 4); [discriminate|]. cbn [fail_if bind] in H.
    destruct (blen (p_value p) mod 4 =? 0) eqn:M; [|discriminate]. split; [now apply nonempty_ne|now apply N.eqb_eq].
  - intros p m (F1 & _ & F3 & F4) (x & D & G). destruct (is_empty (k_data (p_key p))) eqn:E; [now apply is_empty_nil in E|].
    rewrite D. cbn [ok_or bind]. cbv zeta. destruct (is_empty (p_value p)) eqn:E2; [now apply is_empty_nil in E2|]. cbn [fail_if bind].
    rewrite (four_up _ F3 F4). cbn [fail_if bind]. rewrite F4. cbn [N.eqb negb fail_if bind]. rewrite G. eexists. reflexivity.
Qed.
Lemma xpub0_reads t w : reads (eq t) g0ins_xpub [] (fits HXpub0) (same_key HXpub0 w).
Proof.
  apply xpub_reads_gen; [reflexivity|reflexivity|exact g0ins_xpub_equiv| |]; unfold g0ins_xpub.
  - intros p m m' H. destruct (is_empty _); cbn [negb] in H; [discriminate|]. binds H. cbv zeta in H. destruct (is_empty (p_value p)) eqn:E; [discriminate|].
    cbn [orb] in H. destruct (blen (p_value p) mod 4 =? 0) eqn:M; [|discriminate]. split; [now apply nonempty_ne|now apply N.eqb_eq].
  - intros p m (F1 & _ & F3 & F4) (x & D & G). destruct (is_empty (k_data (p_key p))) eqn:E; [now apply is_empty_nil in E|].
    cbn [negb]. rewrite D. cbn [ok_or bind]. cbv zeta. destruct (is_empty (p_value p)) eqn:E2; [now apply is_empty_nil in E2|]. cbn [orb].
    rewrite F4. cbn [N.eqb negb fail_if bind]. rewrite (four_up _ F3 F4). cbn [fail_if bind]. rewrite G. eexists. reflexivity.
Qed.

(** The counts. *)
Lemma varint_fits v : (exists n r, dec_varint v = Ok (n, r)) <-> exists n c x, compact_size n c /\ v = c ++ x.
Proof.
  split.
  - intros (n & r & H). apply dec_varint_spec in H as (c & H). eauto.
  - intros (n & c & x & H). exists n, x. apply dec_varint_spec. eauto.
Qed.
Lemma counts_reads : reads (fun t => x04 = t \/ x05 = t) gcounts_upd (None, None) (fits HCount) (fun p _ => ptype p = x05).
Proof.
  exists (fun _ c => snd c <> None). split; [cbn; congruence|]. unfold gcounts_upd, gins_input_count, gins_output_count. split.
  - intros p [a b] a' T _ H. cbn [snd] in *.
    destruct T as [T|T]; rewrite <- T in *; cbn [beq] in H.
    + change (beq x04 x04) with true in H. cbv iota in H. destruct (is_empty _) eqn:E; [|discriminate]. apply is_empty_nil in E. destruct b; [discriminate|].
      cbn [is_none is_some negb] in H. binds H. apply map_err_ok in Hx. inj H. split; [split; [exact E|]; apply varint_fits; eauto|].
      split; [congruence|]. intros q _. cbn. split; [now left|]. intros [H|H]; [exact H|discriminate].
    + change (beq x05 x04) with false in H. cbv iota in H. destruct (is_empty _) eqn:E; [|discriminate]. apply is_empty_nil in E. destruct b; [discriminate|].
      cbn [is_none is_some negb] in H. binds H. apply map_err_ok in Hx. inj H. split; [split; [exact E|]; apply varint_fits; eauto|].
      split; [congruence|]. intros q _. cbn. split; [now right|]. discriminate.
  - intros p [a b] _ _ (F1 & F2) N. cbn [snd] in *. destruct b; [now destruct N|]. apply varint_fits in F2 as (n & r & F2).
    rewrite F1. cbn [is_empty is_none is_some negb]. rewrite F2. destruct (beq _ _); eexists; reflexivity.
Qed.

(** ** Whole maps *)
Section Frame.
Context {S F : Type} (fty : F -> Type) (get : forall f, S -> fty f) (set : forall f, fty f -> S -> S)
  (Fdec : forall a b : F, {a = b} + {a <> b})
  (upd : forall f, pair -> fty f -> res ierr (fty f)) (slot : byte -> F)
  (ins : pair -> S -> res ierr S) (init : S) (fit : pair -> Prop) (clash : pair -> pair -> Prop).
Hypothesis O : frame_ok fty get set upd slot ins.
Hypothesis R : forall f, reads (fun t => slot t = f) (upd f) (get f init) fit clash.
Hypothesis Same : forall p q, clash p q -> slot (ptype p) = slot (ptype q).

(** A map that reads is made of fields that read. *)
Lemma frame_reads l : Forall wf_pair l ->
  ((exists s, ins_all ins l init = Ok s) <-> Forall fit l /\ ForallOrdPairs (fun p q => ~ clash p q) l).
Proof.
  intros W. split.
  - intros (s & H). pose proof (frame_fields fty get set Fdec upd slot ins O l _ _ H) as Q.
    assert (G : forall f, Forall fit (filter (of_slot Fdec slot f) l) /\ ForallOrdPairs (fun p q => ~ clash p q) (filter (of_slot Fdec slot f) l)).
    { intros f. apply (reads_iff _ _ _ _ _ (R f)); [apply of_slot_Forall| |eauto].
      apply Forall_forall. intros q Hq. apply filter_In in Hq as [Hq _]. rewrite Forall_forall in W. auto. }
    clear - G Same. split.
    + apply Forall_forall. intros p Hp. destruct (G (slot (ptype p))) as [G1 _]. rewrite Forall_forall in G1. apply G1.
      apply filter_In. split; [exact Hp|]. now apply of_slot_true.
    + assert (K : forall f, ForallOrdPairs (fun p q => ~ clash p q) (filter (of_slot Fdec slot f) l)) by (intros f; apply G). clear G.
      induction l as [|p l IH]; [constructor|]. constructor.
      * apply Forall_forall. intros q Hq Cl. specialize (K (slot (ptype p))). cbn [filter] in K.
        rewrite (proj2 (of_slot_true Fdec slot _ _) eq_refl) in K. inversion K as [|? ? K1 _]; subst.
        rewrite Forall_forall in K1. apply (K1 q); [|exact Cl]. apply filter_In. split; [exact Hq|]. apply of_slot_true. symmetry. now apply Same.
      * apply IH. intros f. specialize (K f). cbn [filter] in K. destruct (of_slot Fdec slot f p); [now inversion K|exact K].
  - intros (G1 & G2). apply (frame_ok_of_fields fty get set Fdec upd slot ins O). intros f.
    apply (reads_iff _ _ _ _ _ (R f)); [apply of_slot_Forall| |].
    + apply Forall_forall. intros q Hq. apply filter_In in Hq as [Hq _]. rewrite Forall_forall in W. auto.
    + split.
      * apply Forall_forall. intros q Hq. apply filter_In in Hq as [Hq _]. rewrite Forall_forall in G1. auto.
      * clear -G2. induction G2 as [|p l H _ IH]; [constructor|]. cbn [filter]. destruct (of_slot Fdec slot f p); [|exact IH].
        constructor; [|exact IH]. apply Forall_forall. intros q Hq. apply filter_In in Hq as [Hq _]. rewrite Forall_forall in H. auto.
Qed.
End Frame.

(** A field of one key type, by its shape. *)
Lemma by_shape {A} (sh : byte -> shape) place types t (upd : pair -> A -> res ierr A) a0 s :
  (forall b, t = b <-> types b) -> sh t = s -> s <> HCount ->
  reads (eq t) upd a0 (fits s) (same_key s (place t)) ->
  reads types upd a0 (fun p => fits (sh (ptype p)) p) (clashes sh place).
Proof.
  intros Ht E Hs. apply reads_ext.
  - intros b Hb. now apply Ht.
  - intros p Hp. apply Ht in Hp. rewrite <- Hp, E. reflexivity.
  - intros p q Hp Hq. apply Ht in Hp, Hq. unfold clashes. unfold ptype in *. rewrite <- Hq, E, <- Hp.
    destruct s; try tauto; now destruct Hs.
Qed.

(** Pairs of all other types. *)
Lemma by_other {A} (sh : byte -> shape) place (types : byte -> Prop) (excl : byte -> bool) (upd : pair -> A -> res ierr A) a0 :
  (forall b, types b -> sh b = if excl b then HExcluded else HOther) ->
  reads types upd a0 (fun p => excl (ptype p) = false) (fun p q => p_key p = p_key q) ->
  reads types upd a0 (fun p => fits (sh (ptype p)) p) (clashes sh place).
Proof.
  intros Hs. apply reads_ext.
  - auto.
  - intros p Hp. rewrite (Hs _ Hp). destruct (excl (ptype p)); cbn; [|tauto]. split; [tauto|discriminate].
  - intros p q Hp Hq. unfold clashes. unfold ptype in *. rewrite (Hs _ Hq).
    assert (K : k_type (p_key p) = k_type (p_key q) /\ p_key p = p_key q <-> p_key p = p_key q).
    { split; [tauto|]. intros ->. auto. }
    destruct (excl (k_type (p_key q))); exact K.
Qed.
Lemma none_reads {A} (types : byte -> Prop) (upd : pair -> A -> res ierr A) a0 fit clash : (forall t, ~ types t) -> reads types upd a0 fit clash.
Proof. intros H. exists (fun _ _ => False). split; [auto|]. split; intros p a; intros; exfalso; eapply H; eauto. Qed.
End Facts.

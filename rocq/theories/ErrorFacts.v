(** Why the map decoders refuse a pair. *)
From Verif Require Import Base OMap Consensus ConsensusFacts Ext Raw RawFacts TapTree TapTreeFacts
  Serialize SerializeFacts MapCodec MapFacts V2Global V2Input V2InputFacts V2GlobalFacts V2Output V2OutputFacts
  V0Error V0Input V0Output V0Psbt V0GlobalFacts V0InputFacts V0OutputFacts SpecErrors.
Local Open Scope N_scope.

(** ** Where the contents of a field come from *)
Lemma prov_opt {A} (upd : pair -> option A -> res ierr (option A)) (P : pair -> Prop) l a :
  (forall p a a', upd p a = Ok a' -> P p) ->
  ins_all upd l None = Ok (Some a) -> exists q, In q l /\ P q.
Proof.
  intros HP. destruct l as [|q l]; cbn [ins_all]; intros H; [discriminate|]. binds H.
  exists q. split; [now left|]. eauto.
Qed.

Lemma prov_map {K V} (sk : K -> list N) (sk_inj : forall a b, sk a = sk b -> a = b)
    (upd : pair -> list (K * V) -> res ierr (list (K * V))) (R : pair -> K -> V -> Prop) :
  (forall p m m', upd p m = Ok m' -> exists k v, R p k v /\ m' = m_put sk k v m) ->
  forall l m m', ins_all upd l m = Ok m' ->
  forall k v, m_get sk k m' = Some v -> m_get sk k m = Some v \/ exists q, In q l /\ R q k v.
Proof.
  intros HR. induction l as [|p l IH]; intros m m' H k v G; cbn [ins_all] in H.
  - inj H. auto.
  - binds H. destruct (IH _ _ H _ _ G) as [G'|(q & Hq & Rq)]; [|right; exists q; cbn; auto].
    apply HR in Hx as (k' & v' & Rp & ->). rewrite (m_get_put sk sk_inj) in G'.
    destruct (lex (sk k) (sk k')) eqn:E; [|auto..].
    inj G'. apply lex_eq in E. apply sk_inj in E. subst k'. right. exists p. cbn. auto.
Qed.

Lemma m_mem_get {K V} (sk : K -> list N) k (m : list (K * V)) : m_mem sk k m = true -> exists v, m_get sk k m = Some v.
Proof. unfold m_mem. destruct (m_get sk k m); [eauto|discriminate]. Qed.

Lemma or_mono (A B A' B' : Prop) : (A -> A') -> (B -> B') -> A \/ B -> A' \/ B'.
Proof. tauto. Qed.
Lemma and_mono (A B A' B' : Prop) : (A -> A') -> (B -> B') -> A /\ B -> A' /\ B'.
Proof. tauto. Qed.
Lemma ex_mono {T} (P P' : T -> Prop) : (forall x, P x -> P' x) -> (exists x, P x) -> exists x, P' x.
Proof. intros H (x & Hx). exists x. auto. Qed.

Section Facts.
Context `{X : Ext} {L : ExtLaws X} `{C : Cfg}.

Definition typed (l : list pair) (p : pair) : Prop := Forall (fun q => k_type (p_key q) = k_type (p_key p)) l.

Lemma typed_earlier l p (P : pair -> Prop) : typed l p -> (exists q, In q l /\ P q) -> earlier l p P.
Proof. intros T (q & Hq & Pq). exists q. split; [exact Hq|split; [|exact Pq]]. exact (proj1 (Forall_forall _ _) T q Hq). Qed.

Lemma key_earlier l p : (exists q, In q l /\ p_key q = p_key p) -> earlier l p (fun q => p_key q = p_key p).
Proof. intros (q & Hq & E). exists q. rewrite E. auto. Qed.

Lemma refused_incl sh l l' p e : incl l l' -> refused sh l p e -> refused sh l' p e.
Proof.
  intros I.
  assert (J : forall P, earlier l p P -> earlier l' p P) by (intros P (q & Hq & R); exists q; split; [now apply I|exact R]).
  destruct sh; cbv zeta beta iota delta [refused];
    repeat first
      [ exact (fun H => H)
      | exact (J _)
      | apply I
      | apply or_mono
      | apply and_mono
      | apply ex_mono; intros ? ].
Qed.

(** ** The kinds of fields *)
Lemma nonempty_ne {A} (l : list A) : is_empty l = false -> l <> [].
Proof. intros H ->. discriminate. Qed.

Lemma opt_refused {A} (de : bytes -> res serr A) l p a e : typed l p ->
  ins_all (ins_opt de) l None = Ok a -> ins_opt de p a = Err e -> refused (HValue de) l p e.
Proof.
  intros T H. unfold ins_opt. destruct (is_empty (k_data (p_key p))) eqn:E.
  - apply is_empty_nil in E. destruct a as [a|].
    + intros Q. right. left. split; [exact E|split; [|congruence]]. apply (typed_earlier _ _ _ T).
      eapply prov_opt; [|exact H]. cbn. intros q b b' Hb. unfold ins_opt in Hb.
      destruct (is_empty (k_data (p_key q))) eqn:Eq; [now apply is_empty_nil in Eq|discriminate].
    + destruct (de (p_value p)) as [v|s|] eqn:D; cbn [map_err bind]; [discriminate| |discriminate].
      intros Q. right. right. exists s. split; [exact E|split; [exact D|congruence]].
  - intros Q. left. split; [now apply nonempty_ne|congruence].
Qed.

Lemma place_refused {A} (isp : A -> bool) (de : bytes -> res serr A) a0 l p a e : typed l p -> isp a0 = true ->
  ins_all (ins_placeholder isp de) l a0 = Ok a -> ins_placeholder isp de p a = Err e -> refused (HPlace de) l p e.
Proof.
  intros T H0 H. unfold ins_placeholder. destruct (isp a) eqn:E; cbn [negb].
  - destruct (de (p_value p)) as [v|s|] eqn:D; cbn [map_err]; [discriminate| |discriminate].
    intros Q. right. exists s. split; [exact D|congruence].
  - intros Q. left. split; [|congruence]. apply (typed_earlier _ _ _ T).
    destruct l as [|q l]; [cbn in H; inj H; congruence|]. exists q. cbn. auto.
Qed.

Lemma map_refused {K V} sk (sk_inj : forall a b : K, sk a = sk b -> a = b) (dek : bytes -> res serr K) (dev : bytes -> res serr V) l p m e :
  typed l p -> ins_all (ins_map sk dek dev) l [] = Ok m -> ins_map sk dek dev p m = Err e -> refused (HMap dek dev) l p e.
Proof.
  intros T H. unfold ins_map. destruct (is_empty (k_data (p_key p))) eqn:E.
  { intros Q. left. split; [now apply is_empty_nil|congruence]. }
  destruct (dek (k_data (p_key p))) as [k|s|] eqn:D; cbn [map_err bind]; [|intros Q; right; left; exists s; split; [now apply nonempty_ne|split; [exact D|congruence]]|discriminate].
  destruct (m_mem sk k m) eqn:M.
  - intros Q. right. right. left. exists k. split; [exact D|split; [|congruence]]. apply (typed_earlier _ _ _ T).
    apply m_mem_get in M as (v & G).
    destruct (prov_map sk sk_inj _ (fun q k _ => dek (k_data (p_key q)) = Ok k)
      (fun q m1 m2 Hq => let '(ex_intro _ k (ex_intro _ v (conj A1 (conj A2 (conj A3 A4))))) := ins_map_inv sk dek dev q m1 m2 Hq in
        ex_intro _ k (ex_intro _ v (conj A1 A4))) _ _ _ H _ _ G) as [G'|G']; [discriminate|exact G'].
  - destruct (dev (p_value p)) as [v|s|] eqn:D2; cbn [map_err bind]; [discriminate| |discriminate].
    intros Q. right. right. right. exists k, s. split; [exact D|split; [exact D2|congruence]].
Qed.

Lemma key_ext (p q : pair) : k_type (p_key q) = k_type (p_key p) -> k_data (p_key q) = k_data (p_key p) -> p_key q = p_key p.
Proof. destruct p as [[t d] v], q as [[t' d'] v']. cbn. congruence. Qed.

Lemma hash_refused n (h : bytes -> bytes) ht l p m e :
  typed l p -> ins_all (ins_hash n h ht) l [] = Ok m -> ins_hash n h ht p m = Err e -> refused (HPreimage n h ht) l p e.
Proof.
  intros T H. unfold ins_hash. destruct (is_empty (k_data (p_key p))) eqn:E.
  { intros Q. left. split; [now apply is_empty_nil|congruence]. }
  unfold de_hash at 1. destruct (blen (k_data (p_key p)) =? n) eqn:B; cbn [map_err bind].
  2:{ intros Q. right. left. split; [now apply nonempty_ne|split; [lia|congruence]]. }
  destruct (m_mem bkey _ m) eqn:M.
  - intros Q. right. right. left. split; [lia|split; [|congruence]]. apply key_earlier.
    apply m_mem_get in M as (v & G).
    destruct (prov_map bkey bkey_inj (ins_hash n h ht) (fun q k (_ : bytes) => k_data (p_key q) = k)) with (l := l) (m := @nil (bytes * bytes)) (m' := m) (k := k_data (p_key p)) (v := v)
      as [G'|(q & Hq & Eq)]; [|exact H|exact G|discriminate|].
    { intros q m1 m2 Hq. unfold ins_hash in Hq. destruct (is_empty (k_data (p_key q))); [discriminate|]. binds Hq. apply map_err_ok in Hx.
      unfold de_hash in Hx. destruct (blen (k_data (p_key q)) =? n); [|discriminate]. apply Ok_inj in Hx. subst x.
      destruct (m_mem bkey (k_data (p_key q)) m1); [discriminate|]. unfold de_vec in Hq. cbn [map_err bind] in Hq.
      destruct (bytes_eqb (h (p_value q)) (k_data (p_key q))); [|discriminate]. inj Hq. eauto. }
    exists q. split; [exact Hq|]. apply key_ext; [exact (proj1 (Forall_forall _ _) T q Hq)|exact Eq].
  - unfold de_vec. cbn [map_err bind]. destruct (bytes_eqb _ _) eqn:Eh; [discriminate|].
    intros Q. right. right. right. split; [lia|split; [|congruence]]. intros Eh'. rewrite Eh', bytes_eqb_refl in Eh. discriminate.
Qed.

Lemma sp_refused dev n l p m e :
  typed l p -> ins_all (ins_sp dev n) l [] = Ok m -> ins_sp dev n p m = Err e -> refused (HShare dev n) l p e.
Proof.
  intros T H. unfold ins_sp, de_cpk. destruct (is_empty (k_data (p_key p))) eqn:E.
  { intros Q. left. split; [now apply is_empty_nil|congruence]. }
  destruct (secp_parse (k_data (p_key p))) as [k|] eqn:D; cbn [ok_or bind].
  2:{ intros Q. right. left. split; [now apply nonempty_ne|split; [exact D|congruence]]. }
  destruct (dev (p_value p)) as [v|] eqn:D2; cbn [ok_or bind].
  2:{ intros Q. right. right. left. exists k. split; [exact D|split; [exact D2|congruence]]. }
  destruct (m_mem bkey k m) eqn:M; [|discriminate].
  intros Q. right. right. right. exists k. split; [exact D|split; [|congruence]]. apply (typed_earlier _ _ _ T).
  apply m_mem_get in M as (w & G).
  destruct (prov_map bkey bkey_inj (ins_sp dev n) (fun q k (_ : bytes) => secp_parse (k_data (p_key q)) = Some k)) with (l := l) (m := @nil (bytes * bytes)) (m' := m) (k := k) (v := w)
    as [G'|G']; [|exact H|exact G|discriminate|exact G'].
  intros q m1 m2 Hq. unfold ins_sp, de_cpk in Hq. destruct (is_empty (k_data (p_key q))); [discriminate|]. binds Hq.
  destruct (m_mem _ _ _); [discriminate|]. inj Hq. apply ok_or_ok in Hx. eauto.
Qed.

Lemma unknown_refused l p m e :
  ins_all ins_unknown l [] = Ok m -> ins_unknown p m = Err e -> refused HOther l p e.
Proof.
  intros H. unfold ins_unknown. destruct (m_mem sk_key (p_key p) m) eqn:M; [|discriminate].
  intros Q. split; [|congruence]. apply key_earlier. apply m_mem_get in M as (v & G).
  destruct (prov_map sk_key sk_key_inj ins_unknown (fun q k (_ : bytes) => p_key q = k)) with (l := l) (m := @nil (key * bytes)) (m' := m) (k := p_key p) (v := v)
    as [G'|G']; [|exact H|exact G|discriminate|exact G'].
  intros q m1 m2 Hq. unfold ins_unknown in Hq. destruct (m_mem _ _ _); [discriminate|]. inj Hq. eauto.
Qed.

Lemma prop_refused_gen (err : serr -> ierr) l p m e :
  ins_all (ins_prop err) l [] = Ok m -> ins_prop err p m = Err e ->
  (exists s, propkey_try_from (p_key p) = Err s /\ e = err s)
  \/ (earlier l p (fun q => p_key q = p_key p) /\ e = IDuplicateKey (p_key p)).
Proof.
  intros H. unfold ins_prop. destruct (propkey_try_from (p_key p)) as [k|s|] eqn:D; cbn [map_err bind];
    [|intros Q; left; exists s; split; congruence|discriminate].
  destruct (m_mem sk_propkey k m) eqn:M; [|discriminate].
  intros Q. right. split; [|congruence]. apply key_earlier. apply m_mem_get in M as (v & G).
  destruct (prov_map sk_propkey sk_propkey_inj (ins_prop err) (fun q k (_ : bytes) => propkey_try_from (p_key q) = Ok k)) with (l := l) (m := @nil (propkey * bytes)) (m' := m) (k := k) (v := v)
    as [G'|(q & Hq & Eq)]; [|exact H|exact G|discriminate|].
  - intros q m1 m2 Hq. unfold ins_prop in Hq. binds Hq. apply map_err_ok in Hx. destruct (m_mem _ _ _); [discriminate|]. inj Hq. eauto.
  - exists q. split; [exact Hq|]. apply propkey_try_from_inv in D as (-> & _). now apply propkey_try_from_inv in Eq as (-> & _).
Qed.

Lemma prop_refused l p m e :
  ins_all (ins_prop IDeser) l [] = Ok m -> ins_prop IDeser p m = Err e -> refused (HProp false) l p e.
Proof. intros H Q. right. exact (prop_refused_gen _ _ _ _ _ H Q). Qed.

Lemma gprop_refused l p m e :
  ins_all gins_prop l [] = Ok m -> gins_prop p m = Err e -> refused (HProp true) l p e.
Proof.
  intros H. unfold gins_prop at 1. destruct (is_empty (k_data (p_key p))) eqn:E.
  { intros Q. left. split; [reflexivity|split; [now apply is_empty_nil|congruence]]. }
  intros Q. right. refine (prop_refused_gen (fun _ => IInvalidProprietaryKey) l p m e _ Q).
  assert (G : forall l m0, ins_all gins_prop l m0 = Ok m -> ins_all (ins_prop (fun _ => IInvalidProprietaryKey)) l m0 = Ok m).
  { clear. induction l as [|q l IH]; intros m0 H; cbn [ins_all] in *; [exact H|]. binds H.
    unfold gins_prop in Hx. destruct (is_empty _); [discriminate|]. rewrite Hx. cbn [bind]. auto. }
  auto.
Qed.

(** Optional numbers of the global maps. *)
Lemma fixed_prov (upd : pair -> option N -> res ierr (option N)) l p a :
  (forall q a a', upd q a = Ok a' -> k_data (p_key q) = []) ->
  typed l p -> ins_all upd l None = Ok (Some a) -> earlier l p (fun q => k_data (p_key q) = []).
Proof. intros HP T H. apply (typed_earlier _ _ _ T). exact (prov_opt upd _ l a HP H). Qed.

Lemma le4 v : blen v =? 4 = true -> v = le_enc 4 (le_dec v) /\ le_dec v < U32.
Proof.
  intros H. assert (E : length v = 4%nat) by (unfold blen in H; lia). split.
  - rewrite <- E. symmetry. apply le_enc_dec.
  - pose proof (le_dec_lt v) as B. rewrite E in B. exact B.
Qed.

Lemma u32_refused l p a e : typed l p -> ins_all gins_u32 l None = Ok a -> gins_u32 p a = Err e -> refused (HFixed 4) l p e.
Proof.
  intros T H. unfold gins_u32 at 1. destruct (is_empty (k_data (p_key p))) eqn:E.
  2:{ intros Q. left. split; [now apply nonempty_ne|congruence]. }
  apply is_empty_nil in E. destruct a as [a|]; cbn [is_none is_some negb].
  - intros Q. right. left. split; [exact E|split; [|congruence]]. refine (fixed_prov _ _ _ _ _ T H).
    intros q b b' Hb. unfold gins_u32 in Hb. destruct (is_empty (k_data (p_key q))) eqn:Eq; [now apply is_empty_nil in Eq|discriminate].
  - destruct (blen (p_value p) =? 4) eqn:B; cbn [negb fail_if bind].
    + rewrite dec_u32_four by exact B. cbn. discriminate.
    + intros Q. right. right. split; [exact E|split; [lia|congruence]].
Qed.

Lemma flags_refused l p a e : typed l p -> ins_all gins_flags l None = Ok a -> gins_flags p a = Err e -> refused (HFixed 1) l p e.
Proof.
  intros T H. unfold gins_flags at 1. destruct (is_empty (k_data (p_key p))) eqn:E.
  2:{ intros Q. left. split; [now apply nonempty_ne|congruence]. }
  apply is_empty_nil in E. destruct a as [a|]; cbn [is_none is_some negb].
  - intros Q. right. left. split; [exact E|split; [|congruence]]. refine (fixed_prov _ _ _ _ _ T H).
    intros q b b' Hb. unfold gins_flags in Hb. destruct (is_empty (k_data (p_key q))) eqn:Eq; [now apply is_empty_nil in Eq|discriminate].
  - destruct (blen (p_value p) =? 1) eqn:B; cbn [negb fail_if bind].
    + destruct (p_value p) as [|b [|c r]]; [discriminate|cbn; discriminate|exfalso; cbn in B; unfold blen in B; cbn [length] in B; lia].
    + intros Q. right. right. split; [exact E|split; [lia|congruence]].
Qed.

Lemma version_refused l p a e : typed l p -> ins_all gins_version l None = Ok a -> gins_version p a = Err e -> refused HVersion l p e.
Proof.
  intros T H. unfold gins_version at 1. destruct (is_empty (k_data (p_key p))) eqn:E.
  2:{ intros Q. left. split; [now apply nonempty_ne|congruence]. }
  apply is_empty_nil in E. destruct a as [a|]; cbn [is_none is_some negb].
  - intros Q. right. left. split; [exact E|split; [|congruence]]. refine (fixed_prov _ _ _ _ _ T H).
    intros q b b' Hb. unfold gins_version in Hb. destruct (is_empty (k_data (p_key q))) eqn:Eq; [now apply is_empty_nil in Eq|discriminate].
  - destruct (blen (p_value p) =? 4) eqn:B; cbn [negb fail_if bind].
    + rewrite dec_u32_four by exact B. cbn [map_err bind]. destruct (le_dec (p_value p) =? 2) eqn:V; cbn [negb fail_if bind]; [discriminate|].
      intros Q. right. right. right. exists (le_dec (p_value p)). destruct (le4 _ B) as (V1 & V2).
      split; [exact E|split; [exact V1|split; [exact V2|split; [lia|congruence]]]].
    + intros Q. right. right. left. split; [exact E|split; [lia|congruence]].
Qed.

Lemma version0_refused l p a e : typed l p -> ins_all g0ins_version l None = Ok a -> g0ins_version p a = Err e -> refused HVersion0 l p e.
Proof.
  intros T H. unfold g0ins_version at 1. destruct (is_empty (k_data (p_key p))) eqn:E.
  2:{ intros Q. left. split; [now apply nonempty_ne|congruence]. }
  apply is_empty_nil in E. destruct a as [a|]; cbn [is_none is_some negb].
  - intros Q. right. left. split; [exact E|split; [|congruence]]. refine (fixed_prov _ _ _ _ _ T H).
    intros q b b' Hb. unfold g0ins_version in Hb. destruct (is_empty (k_data (p_key q))) eqn:Eq; [now apply is_empty_nil in Eq|discriminate].
  - destruct (blen (p_value p) =? 4) eqn:B; cbn [negb fail_if bind].
    + rewrite dec_u32_four by exact B. cbn [map_err bind]. destruct (le_dec (p_value p) =? 0) eqn:V; cbn [negb fail_if bind]; [discriminate|].
      intros Q. right. right. right. exists (le_dec (p_value p)). destruct (le4 _ B) as (V1 & V2).
      split; [exact E|split; [exact V1|split; [exact V2|split; [lia|congruence]]]].
    + intros Q. right. right. left. split; [exact E|split; [lia|congruence]].
Qed.

Lemma tx0_refused l p a e : typed l p -> ins_all g0ins_tx l None = Ok a -> g0ins_tx p a = Err e -> refused HTx0 l p e.
Proof.
  intros T H. unfold g0ins_tx at 1. destruct (is_empty (k_data (p_key p))) eqn:E.
  2:{ intros Q. left. split; [now apply nonempty_ne|congruence]. }
  apply is_empty_nil in E. destruct a as [a|]; cbn [is_none is_some negb].
  - intros Q. right. left. split; [exact E|split; [|congruence]]. apply (typed_earlier _ _ _ T). refine (prov_opt _ _ _ _ _ H).
    intros q b b' Hb. unfold g0ins_tx in Hb. destruct (is_empty (k_data (p_key q))) eqn:Eq; [now apply is_empty_nil in Eq|discriminate].
  - destruct (de_unsigned_tx (p_value p)) as [t|s|] eqn:D; cbn [map_err bind]; [discriminate| |discriminate].
    intros Q. right. right. exists s. split; [exact E|split; [exact D|congruence]].
Qed.

Lemma count_prov l : forall c c', ins_all gcounts_upd l c = Ok c' -> snd c = None ->
  snd c' <> None -> Forall (fun q => k_type (p_key q) = x04 \/ k_type (p_key q) = x05) l ->
  exists q, In q l /\ k_type (p_key q) = x05.
Proof.
  induction l as [|q l IH]; intros c c' H H0 H1 T; cbn [ins_all] in H; [inj H; congruence|]. binds H.
  inversion T as [|? ? Tq T']; subst. destruct Tq as [Tq|Tq]; [|exists q; cbn; auto].
  destruct (IH _ _ H) as (q' & Hq & Eq); [|exact H1|exact T'|exists q'; cbn; auto].
  unfold gcounts_upd, ptype in Hx. rewrite Tq in Hx. change (beq x04 x04) with true in Hx. cbv iota in Hx.
  unfold gins_input_count in Hx. destruct (is_empty _); [|discriminate]. destruct (is_none _); [|discriminate].
  binds Hx. injection Hx as <- <-. exact H0.
Qed.

Lemma count_refused l p c e : Forall (fun q => k_type (p_key q) = x04 \/ k_type (p_key q) = x05) l ->
  ins_all gcounts_upd l (None, None) = Ok c -> gcounts_upd p c = Err e -> refused HCount l p e.
Proof.
  intros T H. unfold gcounts_upd at 1, gins_input_count, gins_output_count.
  assert (W : (if is_empty (k_data (p_key p)) then
      if is_none (snd c) then match dec_varint (p_value p) with Err s => IConsensus s = e | _ => False end else IDuplicateKey (p_key p) = e
    else IInvalidKeyDataNotEmpty (p_key p) = e) -> refused HCount l p e).
  { destruct (is_empty (k_data (p_key p))) eqn:E.
    2:{ intros <-. left. split; [now apply nonempty_ne|reflexivity]. }
    apply is_empty_nil in E. destruct (is_none (snd c)) eqn:N0.
    - destruct (dec_varint (p_value p)) as [|s|] eqn:D; [tauto| |tauto]. intros <-. right. right. exists s. auto.
    - intros <-. right. left. split; [exact E|split; [|reflexivity]].
      apply (count_prov _ _ _ H); [reflexivity| |exact T]. intros N1. rewrite N1 in N0. discriminate. }
  intros Q. apply W. clear W. destruct (is_empty _); [|destruct (beq _ _); congruence].
  destruct (is_none _); [|destruct (beq _ _); congruence].
  destruct (dec_varint _) as [[n r]|s|]; destruct (beq _ _); cbn in Q; congruence.
Qed.

Lemma xpub_prov (upd : pair -> list (xpub * keysource) -> res ierr (list (xpub * keysource))) l m x s :
  (forall p m m', ins_map sk_xpub dek_xpub de_keysource p m = Ok m' <-> upd p m = Ok m') ->
  ins_all upd l [] = Ok m -> m_get sk_xpub x m = Some s ->
  exists q, In q l /\ de_xpub (k_data (p_key q)) = Some x /\ p_value q = ser_keysource s.
Proof.
  intros Eq H G.
  destruct (prov_map sk_xpub sk_xpub_inj upd (fun q x s => de_xpub (k_data (p_key q)) = Some x /\ p_value q = ser_keysource s)) with (l := l) (m := @nil (xpub * keysource)) (m' := m) (k := x) (v := s)
    as [G'|G']; [|exact H|exact G|discriminate|exact G'].
  intros q m1 m2 Hq. apply Eq in Hq. apply ins_map_inv in Hq as (k & v & H1 & H2 & _ & ->).
  unfold dek_xpub in H1. apply ok_or_ok in H1. apply keysource_canonical in H2. eauto.
Qed.

Lemma xpub_refused l p m e : typed l p -> ins_all gins_xpub l [] = Ok m -> gins_xpub p m = Err e -> refused HXpub l p e.
Proof.
  intros T H. unfold gins_xpub at 1. destruct (is_empty (k_data (p_key p))) eqn:E.
  { intros Q. left. split; [now apply is_empty_nil|congruence]. }
  destruct (de_xpub (k_data (p_key p))) as [x|] eqn:D; cbn [ok_or bind].
  2:{ intros Q. right. left. split; [now apply nonempty_ne|split; [exact D|congruence]]. }
  intros Q. right. right. exists x. split; [exact D|].
  destruct (is_empty (p_value p)) eqn:V; cbn [fail_if bind] in Q.
  { left. split; [now apply is_empty_nil|congruence]. }
  assert (V' : 0 < blen (p_value p)) by (destruct (p_value p); [discriminate|rewrite blen_cons; lia]).
  destruct (blen (p_value p) <? 4) eqn:B; cbn [fail_if bind] in Q.
  { right. left. split; [lia|congruence]. }
  destruct (blen (p_value p) mod 4 =? 0) eqn:M; cbn [negb fail_if bind] in Q.
  2:{ right. right. left. split; [|split; [lia|congruence]]. destruct (N.eq_dec (blen (p_value p)) 4) as [E4|E4]; [rewrite E4 in M; discriminate|lia]. }
  right. right. right. destruct (m_get sk_xpub x m) as [s|] eqn:G; [|discriminate]. exists s. split; [|congruence].
  apply (typed_earlier _ _ _ T). exact (xpub_prov _ _ _ _ _ gins_xpub_equiv H G).
Qed.

Lemma xpub0_refused l p m e : typed l p -> ins_all g0ins_xpub l [] = Ok m -> g0ins_xpub p m = Err e -> refused HXpub0 l p e.
Proof.
  intros T H. unfold g0ins_xpub at 1. destruct (is_empty (k_data (p_key p))) eqn:E; cbn [negb].
  { intros Q. left. split; [now apply is_empty_nil|congruence]. }
  destruct (de_xpub (k_data (p_key p))) as [x|] eqn:D; cbn [ok_or bind].
  2:{ intros Q. right. left. split; [now apply nonempty_ne|split; [exact D|congruence]]. }
  intros Q. right. right. exists x. split; [exact D|].
  destruct (is_empty (p_value p)) eqn:V; cbn [orb fail_if bind] in Q.
  { apply is_empty_nil in V. left. rewrite V. split; [now left|congruence]. }
  destruct (blen (p_value p) mod 4 =? 0) eqn:M; cbn [negb fail_if bind] in Q.
  2:{ left. split; [right; lia|congruence]. }
  destruct (blen (p_value p) <? 4) eqn:B; cbn [fail_if bind] in Q.
  { exfalso. assert (V' : 0 < blen (p_value p)) by (destruct (p_value p); [discriminate|rewrite blen_cons; lia]).
    apply N.eqb_eq in M. apply N.ltb_lt in B. rewrite N.mod_small in M by exact B. lia. }
  right. destruct (m_get sk_xpub x m) as [s|] eqn:G; [|discriminate]. split; [|congruence].
  apply (typed_earlier _ _ _ T). destruct (xpub_prov _ _ _ _ _ g0ins_xpub_equiv H G) as (q & Hq & Dq & _). exists q. auto.
Qed.

Lemma info_refused l p a e : typed l p -> ins_all ins_sp_v0_info l None = Ok a -> ins_sp_v0_info p a = Err e -> refused (HSilent 66) l p e.
Proof.
  intros T H. unfold ins_sp_v0_info at 1. destruct a as [a|]; cbn [is_none is_some negb fail_if bind].
  { intros Q. left. split; [|congruence]. apply (typed_earlier _ _ _ T). refine (prov_opt _ _ _ _ _ H).
    intros q b b' Hb. unfold ins_sp_v0_info in Hb. binds Hb. unfold fail_if in Hx0.
    destruct (is_empty (k_data (p_key q))) eqn:Eq; [now apply is_empty_nil in Eq|discriminate]. }
  destruct (is_empty (k_data (p_key p))) eqn:E; cbn [negb fail_if bind].
  2:{ intros Q. right. left. split; [now apply nonempty_ne|congruence]. }
  destruct (blen (p_value p) =? 66) eqn:B; cbn [negb fail_if bind]; [discriminate|].
  intros Q. right. right. split; [now apply is_empty_nil|split; [lia|congruence]].
Qed.
Lemma label_refused l p a e : typed l p -> ins_all ins_sp_v0_label l None = Ok a -> ins_sp_v0_label p a = Err e -> refused (HSilent 4) l p e.
Proof.
  intros T H. unfold ins_sp_v0_label at 1. destruct a as [a|]; cbn [is_none is_some negb fail_if bind].
  { intros Q. left. split; [|congruence]. apply (typed_earlier _ _ _ T). refine (prov_opt _ _ _ _ _ H).
    intros q b b' Hb. unfold ins_sp_v0_label in Hb. binds Hb. unfold fail_if in Hx0.
    destruct (is_empty (k_data (p_key q))) eqn:Eq; [now apply is_empty_nil in Eq|discriminate]. }
  destruct (is_empty (k_data (p_key p))) eqn:E; cbn [negb fail_if bind].
  2:{ intros Q. right. left. split; [now apply nonempty_ne|congruence]. }
  destruct (blen (p_value p) =? 4) eqn:B; cbn [negb fail_if bind]; [discriminate|].
  intros Q. right. right. split; [now apply is_empty_nil|split; [lia|congruence]].
Qed.

(** ** Whole maps *)
Section Frame.
Context {S F : Type} (fty : F -> Type) (get : forall f, S -> fty f) (set : forall f, fty f -> S -> S)
  (Fdec : forall a b : F, {a = b} + {a <> b})
  (upd : forall f, pair -> fty f -> res ierr (fty f)) (slot : byte -> F)
  (ins : pair -> S -> res ierr S) (T : byte -> shape) (init : S).
Hypothesis O : frame_ok fty get set upd slot ins.
Hypothesis R : forall f l p a e, Forall (fun q => slot (k_type (p_key q)) = f) l -> slot (k_type (p_key p)) = f ->
  ins_all (upd f) l (get f init) = Ok a -> upd f p a = Err e -> refused (T (k_type (p_key p))) l p e.

Lemma frame_refused l p s e : ins_all ins l init = Ok s -> ins p s = Err e -> refused (T (k_type (p_key p))) l p e.
Proof.
  intros H Q. rewrite (fo_ins _ _ _ _ _ _ O) in Q.
  assert (Q' : upd (slot (ptype p)) p (get (slot (ptype p)) s) = Err e).
  { destruct (upd _ _ _); cbn [bind] in Q; [discriminate|congruence|discriminate]. }
  pose proof (frame_fields fty get set Fdec upd slot ins O l _ _ H (slot (ptype p))) as A.
  eapply refused_incl; [|refine (R _ _ _ _ _ _ eq_refl A Q')].
  - apply incl_filter.
  - exact (of_slot_Forall Fdec slot _ l).
Qed.
End Frame.

Lemma slot_typed {F} (slot : byte -> F) f t l p :
  (forall b, t = b <-> slot b = f) -> Forall (fun q => slot (k_type (p_key q)) = f) l -> slot (k_type (p_key p)) = f ->
  typed l p /\ k_type (p_key p) = t.
Proof.
  intros E H P. apply E in P. split; [|auto]. unfold typed. eapply Forall_impl; [|exact H].
  intros q Hq. apply E in Hq. congruence.
Qed.

(** Decoding stops at the first pair that is refused. *)
Lemma dec_map_err {S E} (ins : pair -> S -> res ierr S) (inj_ : ierr -> E) (dpe : serr -> E) fuel : forall acc bs e,
  (length bs < fuel)%nat ->
  dec_map (fun p s => map_err inj_ (ins p s)) dpe fuel acc bs = Err e ->
  (exists l p r s e', bs = flat_map ser_pair l ++ ser_pair p ++ r /\ ins_all ins l acc = Ok s /\ ins p s = Err e' /\ e = inj_ e')
  \/ (exists s, broken_at bs s /\ e = dpe s).
Proof.
  induction fuel as [|f IH]; intros acc bs e Hf H; [lia|]. cbn [dec_map] in H.
  destruct (dec_pair bs) as [[p r]|s|] eqn:D; [| |discriminate].
  - apply dec_pair_canon in D as [-> Hwf].
    destruct (ins p acc) as [acc'|e'|] eqn:I; cbn [map_err bind] in H; [| |discriminate].
    + apply IH in H.
      * destruct H as [(l & q & r' & s & e' & -> & H1 & H2 & H3)|(s & (l & r' & -> & H1) & H2)].
        -- left. exists (p :: l), q, r', s, e'. cbn [flat_map ins_all]. rewrite I. cbn [bind]. rewrite <- app_assoc. auto.
        -- right. exists s. split; [|exact H2]. exists (p :: l), r'. cbn [flat_map]. rewrite <- app_assoc. auto.
      * assert (G : (0 < length (ser_pair p))%nat) by (unfold ser_pair, ser_key; rewrite !app_length; cbn [length]; lia).
        rewrite app_length in Hf. lia.
    + left. exists [], p, r, acc, e'. cbn. split; [reflexivity|split; [reflexivity|split; [exact I|congruence]]].
  - right. exists s. destruct s; try discriminate;
      (split; [exists [], bs; split; [reflexivity|split; [exact D|discriminate]]|congruence]).
Qed.

Lemma guarded_all (excl : byte -> bool) (e : pair -> ierr) (upd : pair -> list (key * bytes) -> res ierr (list (key * bytes))) l : forall m m',
  ins_all (guarded excl e upd) l m = Ok m' -> ins_all upd l m = Ok m'.
Proof.
  induction l as [|p l IH]; intros m m' H; cbn [ins_all] in *; [exact H|]. binds H. unfold guarded in Hx.
  destruct (excl _); [discriminate|]. rewrite Hx. cbn [bind]. auto.
Qed.

Ltac g_unknown_tac := match goal with Hp : gslot (k_type (p_key ?p)) = _ |- _ =>
  revert Hp; clear; unfold gslot; destruct feat_sp; destruct (k_type (p_key p)); cbn; intros Hp; (discriminate Hp || reflexivity) end.
Ltac i_unknown_tac := match goal with Hp : islot (k_type (p_key ?p)) = _ |- _ =>
  revert Hp; clear; unfold islot; destruct feat_sp; destruct (k_type (p_key p)); cbn; intros Hp; (discriminate Hp || reflexivity) end.
Ltac o_unknown_tac := match goal with Hp : oslot (k_type (p_key ?p)) = _ |- _ =>
  revert Hp; clear; unfold oslot; destruct feat_sp; destruct (k_type (p_key p)); cbn; intros Hp; (discriminate Hp || reflexivity) end.
Ltac g0_unknown_tac := match goal with Hp : g0slot (k_type (p_key ?p)) = _ |- _ =>
  revert Hp; clear; unfold g0slot; destruct (k_type (p_key p)); cbn; intros Hp; (discriminate Hp || reflexivity) end.
Ltac i0_unknown_tac := match goal with Hp : i0slot (k_type (p_key ?p)) = _ |- _ =>
  revert Hp; clear; unfold i0slot; destruct (k_type (p_key p)); cbn; intros Hp; (discriminate Hp || reflexivity) end.
Ltac o0_unknown_tac := match goal with Hp : o0slot (k_type (p_key ?p)) = _ |- _ =>
  revert Hp; clear; unfold o0slot; destruct (k_type (p_key p)); cbn; intros Hp; (discriminate Hp || reflexivity) end.

Lemma g_field_refused f l p a e : Forall (fun q => gslot (k_type (p_key q)) = f) l -> gslot (k_type (p_key p)) = f ->
  ins_all (gupd f) l (gget f gdec_init) = Ok a -> gupd f p a = Err e -> refused ((global_shape feat_sp) (k_type (p_key p))) l p e.
Proof.
  intros Hl Hp H Q. destruct f; cbn [gupd gty] in *.
  - destruct (slot_typed gslot _ _ l p gslot_GVersion Hl Hp) as (T & ->). exact (version_refused _ _ _ _ T H Q).
  - destruct (slot_typed gslot _ _ l p gslot_GTxVersion Hl Hp) as (T & ->). exact (u32_refused _ _ _ _ T H Q).
  - destruct (slot_typed gslot _ _ l p gslot_GFallback Hl Hp) as (T & ->). exact (u32_refused _ _ _ _ T H Q).
  - assert (E : k_type (p_key p) = x04 \/ k_type (p_key p) = x05) by (apply gslot_GCounts in Hp; destruct Hp; auto).
    replace (global_shape feat_sp (k_type (p_key p))) with HCount by (destruct E as [->| ->]; reflexivity).
    refine (count_refused _ _ _ _ _ H Q). eapply Forall_impl; [|exact Hl]. intros q Hq. apply gslot_GCounts in Hq. destruct Hq; auto.
  - destruct (slot_typed gslot _ _ l p gslot_GFlags Hl Hp) as (T & ->). exact (flags_refused _ _ _ _ T H Q).
  - destruct (slot_typed gslot _ _ l p gslot_GXpubs Hl Hp) as (T & ->). exact (xpub_refused _ _ _ _ T H Q).
  - destruct feat_sp eqn:F; [|now apply gslot_GSpEcdhShares_off in Hp].
    destruct (slot_typed gslot _ _ l p (fun t => gslot_GSpEcdhShares t F) Hl Hp) as (T & ->). exact (sp_refused _ _ _ _ _ _ T H Q).
  - destruct feat_sp eqn:F; [|now apply gslot_GSpDleqProofs_off in Hp].
    destruct (slot_typed gslot _ _ l p (fun t => gslot_GSpDleqProofs t F) Hl Hp) as (T & ->). exact (sp_refused _ _ _ _ _ _ T H Q).
  - destruct (slot_typed gslot _ _ l p gslot_GProprietaries Hl Hp) as (T & ->). exact (gprop_refused _ _ _ _ H Q).
  - unfold guarded in Q at 1. unfold ptype in Q. cbv beta in Q.
    replace ((global_shape feat_sp) (k_type (p_key p))) with (if (beq (k_type (p_key p)) x00) then HExcluded else HOther)
      by (g_unknown_tac).
    destruct (beq (k_type (p_key p)) x00) eqn:Ex; [cbn; congruence|].
    refine (unknown_refused _ _ _ _ (guarded_all _ _ _ _ _ _ H) Q).
Qed.
Lemma g_refused l p s e : ins_all global_insert_pair l gdec_init = Ok s -> global_insert_pair p s = Err e ->
  refused ((global_shape feat_sp) (k_type (p_key p))) l p e.
Proof. exact (frame_refused _ gget gset gfield_dec gupd gslot _ (global_shape feat_sp) gdec_init gframe g_field_refused l p s e). Qed.

Lemma i_field_refused f l p a e : Forall (fun q => islot (k_type (p_key q)) = f) l -> islot (k_type (p_key p)) = f ->
  ins_all (iupd f) l (iget f input_invalid) = Ok a -> iupd f p a = Err e -> refused ((input_shape feat_sp) (k_type (p_key p))) l p e.
Proof.
  intros Hl Hp H Q. destruct f; cbn [iupd ity] in *.
  - destruct (slot_typed islot _ _ l p islot_IPreviousTxid Hl Hp) as (T & ->). exact (place_refused (bytes_eqb TXID_ZERO) (de_hash 32) (iget IPreviousTxid input_invalid) _ _ _ _ T eq_refl H Q).
  - destruct (slot_typed islot _ _ l p islot_ISpentOutputIndex Hl Hp) as (T & ->). exact (place_refused (N.eqb U32_MAX) de_u32 (iget ISpentOutputIndex input_invalid) _ _ _ _ T eq_refl H Q).
  - destruct (slot_typed islot _ _ l p islot_ISequence Hl Hp) as (T & ->). exact (opt_refused _ _ _ _ _ T H Q).
  - destruct (slot_typed islot _ _ l p islot_IMinTime Hl Hp) as (T & ->). exact (opt_refused _ _ _ _ _ T H Q).
  - destruct (slot_typed islot _ _ l p islot_IMinHeight Hl Hp) as (T & ->). exact (opt_refused _ _ _ _ _ T H Q).
  - destruct (slot_typed islot _ _ l p islot_INonWitnessUtxo Hl Hp) as (T & ->). exact (opt_refused _ _ _ _ _ T H Q).
  - destruct (slot_typed islot _ _ l p islot_IWitnessUtxo Hl Hp) as (T & ->). exact (opt_refused _ _ _ _ _ T H Q).
  - destruct (slot_typed islot _ _ l p islot_IPartialSigs Hl Hp) as (T & ->). exact (map_refused sk_pubkey sk_pubkey_inj _ _ _ _ _ _ T H Q).
  - destruct (slot_typed islot _ _ l p islot_ISighashType Hl Hp) as (T & ->). exact (opt_refused _ _ _ _ _ T H Q).
  - destruct (slot_typed islot _ _ l p islot_IRedeemScript Hl Hp) as (T & ->). exact (opt_refused _ _ _ _ _ T H Q).
  - destruct (slot_typed islot _ _ l p islot_IWitnessScript Hl Hp) as (T & ->). exact (opt_refused _ _ _ _ _ T H Q).
  - destruct (slot_typed islot _ _ l p islot_IBip32 Hl Hp) as (T & ->). exact (map_refused bkey bkey_inj _ _ _ _ _ _ T H Q).
  - destruct (slot_typed islot _ _ l p islot_IFinalScriptSig Hl Hp) as (T & ->). exact (opt_refused _ _ _ _ _ T H Q).
  - destruct (slot_typed islot _ _ l p islot_IFinalScriptWitness Hl Hp) as (T & ->). exact (opt_refused _ _ _ _ _ T H Q).
  - destruct (slot_typed islot _ _ l p islot_IRipemd160 Hl Hp) as (T & ->). exact (hash_refused _ _ _ _ _ _ _ T H Q).
  - destruct (slot_typed islot _ _ l p islot_ISha256 Hl Hp) as (T & ->). exact (hash_refused _ _ _ _ _ _ _ T H Q).
  - destruct (slot_typed islot _ _ l p islot_IHash160 Hl Hp) as (T & ->). exact (hash_refused _ _ _ _ _ _ _ T H Q).
  - destruct (slot_typed islot _ _ l p islot_IHash256 Hl Hp) as (T & ->). exact (hash_refused _ _ _ _ _ _ _ T H Q).
  - destruct (slot_typed islot _ _ l p islot_ITapKeySig Hl Hp) as (T & ->). exact (opt_refused _ _ _ _ _ T H Q).
  - destruct (slot_typed islot _ _ l p islot_ITapScriptSigs Hl Hp) as (T & ->). exact (map_refused sk_xleaf sk_xleaf_inj _ _ _ _ _ _ T H Q).
  - destruct (slot_typed islot _ _ l p islot_ITapScripts Hl Hp) as (T & ->). exact (map_refused sk_controlblock sk_controlblock_inj _ _ _ _ _ _ T H Q).
  - destruct (slot_typed islot _ _ l p islot_ITapKeyOrigins Hl Hp) as (T & ->). exact (map_refused bkey bkey_inj _ _ _ _ _ _ T H Q).
  - destruct (slot_typed islot _ _ l p islot_ITapInternalKey Hl Hp) as (T & ->). exact (opt_refused _ _ _ _ _ T H Q).
  - destruct (slot_typed islot _ _ l p islot_ITapMerkleRoot Hl Hp) as (T & ->). exact (opt_refused _ _ _ _ _ T H Q).
  - destruct feat_sp eqn:F; [|now apply islot_ISpEcdhShares_off in Hp].
    destruct (slot_typed islot _ _ l p (fun t => islot_ISpEcdhShares t F) Hl Hp) as (T & ->). exact (sp_refused _ _ _ _ _ _ T H Q).
  - destruct feat_sp eqn:F; [|now apply islot_ISpDleqProofs_off in Hp].
    destruct (slot_typed islot _ _ l p (fun t => islot_ISpDleqProofs t F) Hl Hp) as (T & ->). exact (sp_refused _ _ _ _ _ _ T H Q).
  - destruct (slot_typed islot _ _ l p islot_IProprietaries Hl Hp) as (T & ->). exact (prop_refused _ _ _ _ H Q).
  - replace ((input_shape feat_sp) (k_type (p_key p))) with HOther by (i_unknown_tac).
    exact (unknown_refused _ _ _ _ H Q).
Qed.
Lemma i_refused l p s e : ins_all input_insert_pair l input_invalid = Ok s -> input_insert_pair p s = Err e ->
  refused ((input_shape feat_sp) (k_type (p_key p))) l p e.
Proof. exact (frame_refused _ iget iset ifield_dec iupd islot _ (input_shape feat_sp) input_invalid iframe i_field_refused l p s e). Qed.

Lemma o_field_refused f l p a e : Forall (fun q => oslot (k_type (p_key q)) = f) l -> oslot (k_type (p_key p)) = f ->
  ins_all (oupd f) l (oget f output_invalid) = Ok a -> oupd f p a = Err e -> refused ((output_shape feat_sp) (k_type (p_key p))) l p e.
Proof.
  intros Hl Hp H Q. destruct f; cbn [oupd oty] in *.
  - destruct (slot_typed oslot _ _ l p oslot_OAmount Hl Hp) as (T & ->). exact (place_refused (fun a => a =? 0) de_amount (oget OAmount output_invalid) _ _ _ _ T eq_refl H Q).
  - destruct (slot_typed oslot _ _ l p oslot_OScriptPubkey Hl Hp) as (T & ->). exact (place_refused is_empty de_script (oget OScriptPubkey output_invalid) _ _ _ _ T eq_refl H Q).
  - destruct (slot_typed oslot _ _ l p oslot_ORedeemScript Hl Hp) as (T & ->). exact (opt_refused _ _ _ _ _ T H Q).
  - destruct (slot_typed oslot _ _ l p oslot_OWitnessScript Hl Hp) as (T & ->). exact (opt_refused _ _ _ _ _ T H Q).
  - destruct (slot_typed oslot _ _ l p oslot_OBip32 Hl Hp) as (T & ->). exact (map_refused bkey bkey_inj _ _ _ _ _ _ T H Q).
  - destruct (slot_typed oslot _ _ l p oslot_OTapInternalKey Hl Hp) as (T & ->). exact (opt_refused _ _ _ _ _ T H Q).
  - destruct (slot_typed oslot _ _ l p oslot_OTapTree Hl Hp) as (T & ->). exact (opt_refused _ _ _ _ _ T H Q).
  - destruct (slot_typed oslot _ _ l p oslot_OTapKeyOrigins Hl Hp) as (T & ->). exact (map_refused bkey bkey_inj _ _ _ _ _ _ T H Q).
  - destruct feat_sp eqn:F; [|now apply oslot_OSpInfo_off in Hp].
    destruct (slot_typed oslot _ _ l p (fun t => oslot_OSpInfo t F) Hl Hp) as (T & ->). exact (info_refused _ _ _ _ T H Q).
  - destruct feat_sp eqn:F; [|now apply oslot_OSpLabel_off in Hp].
    destruct (slot_typed oslot _ _ l p (fun t => oslot_OSpLabel t F) Hl Hp) as (T & ->). exact (label_refused _ _ _ _ T H Q).
  - destruct (slot_typed oslot _ _ l p oslot_OProprietaries Hl Hp) as (T & ->). exact (prop_refused _ _ _ _ H Q).
  - replace ((output_shape feat_sp) (k_type (p_key p))) with HOther by (o_unknown_tac).
    exact (unknown_refused _ _ _ _ H Q).
Qed.
Lemma o_refused l p s e : ins_all output_insert_pair l output_invalid = Ok s -> output_insert_pair p s = Err e ->
  refused ((output_shape feat_sp) (k_type (p_key p))) l p e.
Proof. exact (frame_refused _ oget oset ofield_dec oupd oslot _ (output_shape feat_sp) output_invalid oframe o_field_refused l p s e). Qed.

Lemma g0_field_refused f l p a e : Forall (fun q => g0slot (k_type (p_key q)) = f) l -> g0slot (k_type (p_key p)) = f ->
  ins_all (g0upd f) l (g0get f gdec0_init) = Ok a -> g0upd f p a = Err e -> refused (global0_shape (k_type (p_key p))) l p e.
Proof.
  intros Hl Hp H Q. destruct f; cbn [g0upd g0ty] in *.
  - destruct (slot_typed g0slot _ _ l p g0slot_G0Tx Hl Hp) as (T & ->). exact (tx0_refused _ _ _ _ T H Q).
  - destruct (slot_typed g0slot _ _ l p g0slot_G0Xpub Hl Hp) as (T & ->). exact (xpub0_refused _ _ _ _ T H Q).
  - destruct (slot_typed g0slot _ _ l p g0slot_G0Version Hl Hp) as (T & ->). exact (version0_refused _ _ _ _ T H Q).
  - destruct (slot_typed g0slot _ _ l p g0slot_G0Proprietary Hl Hp) as (T & ->). exact (prop_refused _ _ _ _ H Q).
  - unfold guarded in Q at 1. unfold ptype in Q. cbv beta in Q.
    replace (global0_shape (k_type (p_key p))) with (if (global0_excluded (k_type (p_key p))) then HExcluded else HOther)
      by (g0_unknown_tac).
    destruct (global0_excluded (k_type (p_key p))) eqn:Ex; [cbn; congruence|].
    refine (unknown_refused _ _ _ _ (guarded_all _ _ _ _ _ _ H) Q).
Qed.
Lemma g0_refused l p s e : ins_all global0_insert_pair l gdec0_init = Ok s -> global0_insert_pair p s = Err e ->
  refused (global0_shape (k_type (p_key p))) l p e.
Proof. exact (frame_refused _ g0get g0set g0field_dec g0upd g0slot _ global0_shape gdec0_init g0frame g0_field_refused l p s e). Qed.

Lemma i0_field_refused f l p a e : Forall (fun q => i0slot (k_type (p_key q)) = f) l -> i0slot (k_type (p_key p)) = f ->
  ins_all (i0upd f) l (i0get f input0_default) = Ok a -> i0upd f p a = Err e -> refused (input0_shape (k_type (p_key p))) l p e.
Proof.
  intros Hl Hp H Q. destruct f; cbn [i0upd i0ty] in *.
  - destruct (slot_typed i0slot _ _ l p i0slot_I0NonWitnessUtxo Hl Hp) as (T & ->). exact (opt_refused _ _ _ _ _ T H Q).
  - destruct (slot_typed i0slot _ _ l p i0slot_I0WitnessUtxo Hl Hp) as (T & ->). exact (opt_refused _ _ _ _ _ T H Q).
  - destruct (slot_typed i0slot _ _ l p i0slot_I0PartialSigs Hl Hp) as (T & ->). exact (map_refused sk_pubkey sk_pubkey_inj _ _ _ _ _ _ T H Q).
  - destruct (slot_typed i0slot _ _ l p i0slot_I0SighashType Hl Hp) as (T & ->). exact (opt_refused _ _ _ _ _ T H Q).
  - destruct (slot_typed i0slot _ _ l p i0slot_I0RedeemScript Hl Hp) as (T & ->). exact (opt_refused _ _ _ _ _ T H Q).
  - destruct (slot_typed i0slot _ _ l p i0slot_I0WitnessScript Hl Hp) as (T & ->). exact (opt_refused _ _ _ _ _ T H Q).
  - destruct (slot_typed i0slot _ _ l p i0slot_I0Bip32 Hl Hp) as (T & ->). exact (map_refused bkey bkey_inj _ _ _ _ _ _ T H Q).
  - destruct (slot_typed i0slot _ _ l p i0slot_I0FinalScriptSig Hl Hp) as (T & ->). exact (opt_refused _ _ _ _ _ T H Q).
  - destruct (slot_typed i0slot _ _ l p i0slot_I0FinalScriptWitness Hl Hp) as (T & ->). exact (opt_refused _ _ _ _ _ T H Q).
  - destruct (slot_typed i0slot _ _ l p i0slot_I0Ripemd160 Hl Hp) as (T & ->). exact (hash_refused _ _ _ _ _ _ _ T H Q).
  - destruct (slot_typed i0slot _ _ l p i0slot_I0Sha256 Hl Hp) as (T & ->). exact (hash_refused _ _ _ _ _ _ _ T H Q).
  - destruct (slot_typed i0slot _ _ l p i0slot_I0Hash160 Hl Hp) as (T & ->). exact (hash_refused _ _ _ _ _ _ _ T H Q).
  - destruct (slot_typed i0slot _ _ l p i0slot_I0Hash256 Hl Hp) as (T & ->). exact (hash_refused _ _ _ _ _ _ _ T H Q).
  - destruct (slot_typed i0slot _ _ l p i0slot_I0TapKeySig Hl Hp) as (T & ->). exact (opt_refused _ _ _ _ _ T H Q).
  - destruct (slot_typed i0slot _ _ l p i0slot_I0TapScriptSigs Hl Hp) as (T & ->). exact (map_refused sk_xleaf sk_xleaf_inj _ _ _ _ _ _ T H Q).
  - destruct (slot_typed i0slot _ _ l p i0slot_I0TapScripts Hl Hp) as (T & ->). exact (map_refused sk_controlblock sk_controlblock_inj _ _ _ _ _ _ T H Q).
  - destruct (slot_typed i0slot _ _ l p i0slot_I0TapKeyOrigins Hl Hp) as (T & ->). exact (map_refused bkey bkey_inj _ _ _ _ _ _ T H Q).
  - destruct (slot_typed i0slot _ _ l p i0slot_I0TapInternalKey Hl Hp) as (T & ->). exact (opt_refused _ _ _ _ _ T H Q).
  - destruct (slot_typed i0slot _ _ l p i0slot_I0TapMerkleRoot Hl Hp) as (T & ->). exact (opt_refused _ _ _ _ _ T H Q).
  - destruct (slot_typed i0slot _ _ l p i0slot_I0Proprietary Hl Hp) as (T & ->). exact (prop_refused _ _ _ _ H Q).
  - unfold guarded in Q at 1. unfold ptype in Q. cbv beta in Q.
    replace (input0_shape (k_type (p_key p))) with (if (input0_excluded (k_type (p_key p))) then HExcluded else HOther)
      by (i0_unknown_tac).
    destruct (input0_excluded (k_type (p_key p))) eqn:Ex; [cbn; congruence|].
    refine (unknown_refused _ _ _ _ (guarded_all _ _ _ _ _ _ H) Q).
Qed.
Lemma i0_refused l p s e : ins_all input0_insert_pair l input0_default = Ok s -> input0_insert_pair p s = Err e ->
  refused (input0_shape (k_type (p_key p))) l p e.
Proof. exact (frame_refused _ i0get i0set i0field_dec i0upd i0slot _ input0_shape input0_default i0frame i0_field_refused l p s e). Qed.

Lemma o0_field_refused f l p a e : Forall (fun q => o0slot (k_type (p_key q)) = f) l -> o0slot (k_type (p_key p)) = f ->
  ins_all (o0upd f) l (o0get f output0_default) = Ok a -> o0upd f p a = Err e -> refused (output0_shape (k_type (p_key p))) l p e.
Proof.
  intros Hl Hp H Q. destruct f; cbn [o0upd o0ty] in *.
  - destruct (slot_typed o0slot _ _ l p o0slot_O0RedeemScript Hl Hp) as (T & ->). exact (opt_refused _ _ _ _ _ T H Q).
  - destruct (slot_typed o0slot _ _ l p o0slot_O0WitnessScript Hl Hp) as (T & ->). exact (opt_refused _ _ _ _ _ T H Q).
  - destruct (slot_typed o0slot _ _ l p o0slot_O0Bip32 Hl Hp) as (T & ->). exact (map_refused bkey bkey_inj _ _ _ _ _ _ T H Q).
  - destruct (slot_typed o0slot _ _ l p o0slot_O0TapInternalKey Hl Hp) as (T & ->). exact (opt_refused _ _ _ _ _ T H Q).
  - destruct (slot_typed o0slot _ _ l p o0slot_O0TapTree Hl Hp) as (T & ->). exact (opt_refused _ _ _ _ _ T H Q).
  - destruct (slot_typed o0slot _ _ l p o0slot_O0TapKeyOrigins Hl Hp) as (T & ->). exact (map_refused bkey bkey_inj _ _ _ _ _ _ T H Q).
  - destruct (slot_typed o0slot _ _ l p o0slot_O0Proprietary Hl Hp) as (T & ->). exact (prop_refused _ _ _ _ H Q).
  - unfold guarded in Q at 1. unfold ptype in Q. cbv beta in Q.
    replace (output0_shape (k_type (p_key p))) with (if (output0_excluded (k_type (p_key p))) then HExcluded else HOther)
      by (o0_unknown_tac).
    destruct (output0_excluded (k_type (p_key p))) eqn:Ex; [cbn; congruence|].
    refine (unknown_refused _ _ _ _ (guarded_all _ _ _ _ _ _ H) Q).
Qed.
Lemma o0_refused l p s e : ins_all output0_insert_pair l output0_default = Ok s -> output0_insert_pair p s = Err e ->
  refused (output0_shape (k_type (p_key p))) l p e.
Proof. exact (frame_refused _ o0get o0set o0field_dec o0upd o0slot _ output0_shape output0_default o0frame o0_field_refused l p s e). Qed.

End Facts.

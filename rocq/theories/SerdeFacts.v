(** Proofs about the model of the serde layer. *)
From Coq Require Import String Permutation.
From Verif Require Import Base OMap Consensus Ext Raw RawFacts TapTree Serialize SerializeFacts SighashType SpecSighash
  V2Global V2Input V2Output V2Psbt V0Input V0Output V0Psbt Serde SpecPsbt SpecPsbt0 SpecSerde.
Local Open Scope N_scope.

(** ** Hex *)
Lemma hex_value_digit n : n < 16 -> hex_value (hex_digit n) = Some n.
Proof.
  intros H. assert (G : forallb (fun n => match hex_value (hex_digit n) with Some m => m =? n | None => false end)
    [0;1;2;3;4;5;6;7;8;9;10;11;12;13;14;15] = true) by reflexivity.
  rewrite forallb_forall in G. specialize (G n).
  assert (I : In n [0;1;2;3;4;5;6;7;8;9;10;11;12;13;14;15]) by (cbn; lia).
  apply G in I. destruct (hex_value (hex_digit n)); [|discriminate]. apply N.eqb_eq in I. congruence.
Qed.

Lemma from_to_hex b : from_hex (to_hex b) = Some b.
Proof.
  induction b as [|x b IH]; [reflexivity|].
  cbn [to_hex flat_map app from_hex]. pose proof (b2n_lt x).
  rewrite !hex_value_digit by lia. fold (to_hex b). rewrite IH.
  replace (16 * (b2n x / 16) + b2n x mod 16) with (b2n x) by lia. now rewrite n2b_b2n.
Qed.

(** ** Single codecs *)
Definition back {A} (f : fmt) (ok : A -> Prop) (c : codec A) : Prop :=
  forall x, ok x -> c_de c f (c_ser c f x) = Some x.
Definition sound {A} (f : fmt) (ok : A -> Prop) (c : codec A) : Prop :=
  forall v x, c_de c f v = Some x -> ok x.
Definition some_val {A} (f : fmt) (c : codec A) : Prop := forall x, c_ser c f x <> SNull.
Definition json {A} (f : fmt) (c : codec A) : Prop := f_hr f = true -> forall x, json_doc (c_ser c f x).

Lemma fback {A} (ok : A -> Prop) c : faithful ok c -> forall f, back f ok c.
Proof. intros H f x. apply (fa_back _ _ H). Qed.
Lemma fsound {A} (ok : A -> Prop) c : faithful ok c -> forall f, sound f ok c.
Proof. intros H f v x. apply (fa_typed _ _ H). Qed.
Lemma fsome {A} (ok : A -> Prop) c : faithful ok c -> forall f, some_val f c.
Proof. intros H f x. apply (fa_some _ _ H). Qed.
Lemma fjson {A} (ok : A -> Prop) c : faithful ok c -> forall f, json f c.
Proof. intros H f E x. apply (fa_json _ _ H). exact E. Qed.

Lemma back_weaken {A} f (P Q : A -> Prop) c : (forall x, P x -> Q x) -> back f Q c -> back f P c.
Proof. intros H B x Hx. apply B, H, Hx. Qed.
Lemma sound_weaken {A} f (P Q : A -> Prop) c : (forall x, P x -> Q x) -> sound f P c -> sound f Q c.
Proof. intros H B v x Hx. eapply H, B, Hx. Qed.

Lemma num_back f b : back f (fun n => n < b) (c_num b).
Proof. intros n H. cbn. apply N.ltb_lt in H. now rewrite H. Qed.
Lemma num_sound f b : sound f (fun n => n < b) (c_num b).
Proof. intros v n H. cbn in H. destruct v; try discriminate. destruct (N.ltb_spec n0 b); congruence. Qed.
Lemma byte_back f : back f any c_byte.
Proof. intros x _. cbn. pose proof (b2n_lt x). apply N.ltb_lt in H. rewrite H. now rewrite n2b_b2n. Qed.
Lemma any_sound {A} f (c : codec A) : sound f any c.
Proof. intros v x _. exact I. Qed.

Lemma de_all_map {A B} (ser : A -> B) (de : B -> option A) l :
  Forall (fun a => de (ser a) = Some a) l -> de_all de (map ser l) = Some l.
Proof. induction 1 as [|a l H _ IH]; [reflexivity|]. cbn. now rewrite H, IH. Qed.
Lemma de_all_forall {A B} (P : B -> Prop) (de : A -> option B) :
  (forall v x, de v = Some x -> P x) -> forall l r, de_all de l = Some r -> Forall P r.
Proof.
  intros H. induction l as [|v l IH]; cbn; intros r E; [inj E; constructor|].
  destruct (de v) eqn:D; [|discriminate]. destruct (de_all de l) eqn:G; [|discriminate]. inj E.
  constructor; eauto.
Qed.
Lemma vec_back {A} f (ok : A -> Prop) c : back f ok c -> back f (Forall ok) (c_vec c).
Proof. intros H l Hl. cbn. apply de_all_map. eapply Forall_impl; [|exact Hl]. exact H. Qed.
Lemma vec_sound {A} f (ok : A -> Prop) c : sound f ok c -> sound f (Forall ok) (c_vec c).
Proof. intros H v l E. cbn in E. destruct v; try discriminate. eapply de_all_forall; eauto. Qed.
Lemma vec_json {A} f (c : codec A) : json f c -> json f (c_vec c).
Proof. intros H E l. cbn. constructor. apply Forall_forall. intros v Hv. apply in_map_iff in Hv as (x & <- & _). now apply H. Qed.
Lemma num_json f b : json f (c_num b).
Proof. intros _ x. constructor. Qed.
Lemma byte_json f : json f c_byte.
Proof. intros _ x. constructor. Qed.
Lemma bytes_back f : back f any c_bytes.
Proof. intros b _. apply (vec_back f any c_byte); [apply byte_back|]. apply Forall_forall. intros; exact I. Qed.

Lemma opt_back {A} f (ok : A -> Prop) c : back f ok c -> some_val f c -> back f (opt_of ok) (c_opt c).
Proof.
  intros H S [a|] Ho; [|reflexivity]. cbn in *. pose proof (S a). rewrite (H _ Ho).
  destruct (c_ser c f a); congruence.
Qed.
Lemma opt_sound {A} f (ok : A -> Prop) c : sound f ok c -> sound f (opt_of ok) (c_opt c).
Proof.
  intros H v o E. cbn in E.
  destruct v; [inj E; exact I|..]; (destruct (c_de c f _) eqn:D; [|discriminate]; inj E; cbn; eauto).
Qed.
Lemma opt_json {A} f (c : codec A) : json f c -> json f (c_opt c).
Proof. intros H E [x|]; cbn; [now apply H|constructor]. Qed.

Lemma pair_back {A B} f (P : A -> Prop) (Q : B -> Prop) a b :
  back f P a -> back f Q b -> back f (fun x => P (fst x) /\ Q (snd x)) (c_pair a b).
Proof. intros Ha Hb [x y] [Hx Hy]. cbn in *. rewrite (Ha _ Hx), (Hb _ Hy). reflexivity. Qed.
Lemma pair_sound {A B} f (P : A -> Prop) (Q : B -> Prop) a b :
  sound f P a -> sound f Q b -> sound f (fun x => P (fst x) /\ Q (snd x)) (c_pair a b).
Proof.
  intros Ha Hb v [x y] E. cbn in E. destruct v as [| | | | |[|u [|w [|z l]]]|]; try discriminate.
  destruct (c_de a f u) eqn:D; [|discriminate]. destruct (c_de b f w) eqn:G; [|discriminate].
  injection E as -> ->. split; cbn; eauto.
Qed.
Lemma pair_json {A B} f (a : codec A) (b : codec B) : json f a -> json f b -> json f (c_pair a b).
Proof. intros Ha Hb E x. cbn. constructor. constructor; [now apply Ha|]. constructor; [now apply Hb|constructor]. Qed.

Lemma extend_forall {K V} (sk : K -> list N) (P : K * V -> Prop) l : forall m,
  Forall P m -> Forall P l -> Forall P (m_extend sk m l).
Proof.
  induction l as [|[k v] l IH]; intros m Hm Hl; [exact Hm|]. inversion Hl; subst.
  cbn. apply IH; [|assumption]. now apply m_put_forall.
Qed.
Lemma extend_map_of {K V} (sk : K -> list N) (P : K -> Prop) (Q : V -> Prop) l :
  (forall a b, sk a = sk b -> a = b) -> Forall (fun x => P (fst x) /\ Q (snd x)) l -> map_of sk P Q (m_extend sk [] l).
Proof.
  intros I H. split; [apply m_extend_is_sorted; [exact I|constructor]|]. now apply extend_forall.
Qed.
Lemma extend_back {K V} (sk : K -> list N) (P : K -> Prop) (Q : V -> Prop) m :
  (forall a b, sk a = sk b -> a = b) -> map_of sk P Q m -> m_extend sk [] m = m.
Proof. intros I [H _]. now apply m_extend_nil. Qed.

Lemma map_back {K V} f (sk : K -> list N) (P : K -> Prop) (Q : V -> Prop) k c :
  (forall a b, sk a = sk b -> a = b) -> back f P k -> back f Q c -> back f (map_of sk P Q) (c_map sk k c).
Proof.
  intros I Hk Hc m Hm. cbn.
  rewrite (de_all_map (fun x : K * V => (c_ser k f (fst x), c_ser c f (snd x)))).
  - now rewrite (extend_back sk P Q).
  - eapply Forall_impl; [|exact (proj2 Hm)]. intros [a b] [Ha Hb]. cbn in *. now rewrite (Hk _ Ha), (Hc _ Hb).
Qed.
Lemma map_sound {K V} f (sk : K -> list N) (P : K -> Prop) (Q : V -> Prop) k c :
  (forall a b, sk a = sk b -> a = b) -> sound f P k -> sound f Q c -> sound f (map_of sk P Q) (c_map sk k c).
Proof.
  intros I Hk Hc v m E. cbn in E. destruct v; try discriminate.
  destruct (de_all _ l) eqn:D; [|discriminate]. inj E. apply extend_map_of; [exact I|].
  eapply de_all_forall; [|exact D]. intros [u w] [x y] G. cbn in G.
  destruct (c_de k f u) eqn:D1; [|discriminate]. destruct (c_de c f w) eqn:D2; [|discriminate].
  injection G as -> ->. split; cbn; eauto.
Qed.
Lemma map_json {K V} f (sk : K -> list N) (k : codec K) (c : codec V) : textual k -> json f c -> json f (c_map sk k c).
Proof.
  intros T J E m. cbn. constructor. apply Forall_forall. intros v Hv. apply in_map_iff in Hv as (x & <- & _).
  split; [apply T; exact E|apply J; exact E].
Qed.

Lemma as_seq_back {K V} f (sk : K -> list N) (P : K -> Prop) (Q : V -> Prop) k c :
  (forall a b, sk a = sk b -> a = b) -> back f P k -> back f Q c -> back f (map_of sk P Q) (c_as_seq sk k c).
Proof.
  intros I Hk Hc m Hm. unfold c_as_seq. cbn [c_ser c_de]. destruct (f_hr f).
  - rewrite (vec_back f (fun x : K * V => P (fst x) /\ Q (snd x)) (c_pair k c)); [|now apply pair_back|exact (proj2 Hm)].
    now rewrite (extend_back sk P Q).
  - now apply (map_back f sk P Q).
Qed.
Lemma as_seq_sound {K V} f (sk : K -> list N) (P : K -> Prop) (Q : V -> Prop) k c :
  (forall a b, sk a = sk b -> a = b) -> sound f P k -> sound f Q c -> sound f (map_of sk P Q) (c_as_seq sk k c).
Proof.
  intros I Hk Hc v m E. unfold c_as_seq in E. cbn [c_de] in E. destruct (f_hr f).
  - destruct (c_de (c_vec (c_pair k c)) f v) eqn:D; [|discriminate]. inj E.
    apply extend_map_of; [exact I|]. exact (vec_sound f _ _ (pair_sound f P Q k c Hk Hc) _ _ D).
  - now apply (map_sound f sk P Q k c I Hk Hc v m).
Qed.
Lemma as_seq_json {K V} f (sk : K -> list N) (k : codec K) (c : codec V) : json f k -> json f c -> json f (c_as_seq sk k c).
Proof. intros Hk Hc E m. unfold c_as_seq. cbn [c_ser]. rewrite E. apply vec_json; [|exact E]. now apply pair_json. Qed.

Lemma hex_back f : back f any c_hex.
Proof. intros b _. unfold c_hex. cbn [c_ser c_de]. destruct (f_hr f); [apply from_to_hex|now apply bytes_back]. Qed.
Lemma hex_json f : json f c_hex.
Proof. intros E b. unfold c_hex. cbn [c_ser]. rewrite E. constructor. Qed.

Lemma seq_bytes_back {K} f (sk : K -> list N) (P : K -> Prop) k :
  (forall a b, sk a = sk b -> a = b) -> back f P k -> back f (map_of sk P any) (c_seq_byte_values sk k).
Proof.
  intros I Hk m Hm. unfold c_seq_byte_values. cbn [c_ser c_de]. destruct (f_hr f).
  - rewrite (vec_back f (fun x : K * bytes => P (fst x) /\ any (snd x)) (c_pair k c_hex));
      [|apply pair_back; [exact Hk|apply hex_back]|exact (proj2 Hm)].
    now rewrite (extend_back sk P any).
  - apply (map_back f sk P any); auto. apply bytes_back.
Qed.
Lemma seq_bytes_sound {K} f (sk : K -> list N) (P : K -> Prop) k :
  (forall a b, sk a = sk b -> a = b) -> sound f P k -> sound f (map_of sk P any) (c_seq_byte_values sk k).
Proof.
  intros I Hk v m E. unfold c_seq_byte_values in E. cbn [c_de] in E. destruct (f_hr f).
  - destruct (c_de (c_vec (c_pair k c_hex)) f v) eqn:D; [|discriminate]. inj E.
    apply extend_map_of; [exact I|]. exact (vec_sound f _ _ (pair_sound f P any k c_hex Hk (any_sound f _)) _ _ D).
  - exact (map_sound f sk P any k c_bytes I Hk (any_sound f _) v m E).
Qed.
Lemma seq_bytes_json {K} f (sk : K -> list N) (k : codec K) : json f k -> json f (c_seq_byte_values sk k).
Proof. intros Hk E m. unfold c_seq_byte_values. cbn [c_ser]. rewrite E. apply vec_json; [|exact E]. apply pair_json; [exact Hk|apply hex_json]. Qed.

(** Preimages come back if the deserializer lends strings, or if there are none. *)
Lemma byte_values_back {K} f (sk : K -> list N) (P : K -> Prop) k m :
  (forall a b, sk a = sk b -> a = b) -> back f P k -> map_of sk P any m -> (f_hr f = true -> f_lends f = true \/ m = []) ->
  c_de (c_byte_values sk k) f (c_ser (c_byte_values sk k) f m) = Some m.
Proof.
  intros I Hk Hm Hl. unfold c_byte_values. cbn [c_ser c_de]. destruct (f_hr f).
  - destruct (Hl eq_refl) as [L| ->]; [|reflexivity].
    rewrite (de_all_map (fun x : K * bytes => (c_ser k f (fst x), SStr (to_hex (snd x))))).
    + now rewrite (extend_back sk P any).
    + eapply Forall_impl; [|exact (proj2 Hm)]. intros [a b] [Ha _]. cbn in *.
      unfold borrowed_str. rewrite L, (Hk _ Ha), from_to_hex. reflexivity.
  - apply (map_back f sk P any); auto. apply bytes_back.
Qed.
Lemma byte_values_sound {K} f (sk : K -> list N) (P : K -> Prop) k :
  (forall a b, sk a = sk b -> a = b) -> sound f P k -> sound f (map_of sk P any) (c_byte_values sk k).
Proof.
  intros I Hk v m E. unfold c_byte_values in E. cbn [c_de] in E. destruct (f_hr f).
  - destruct v; try discriminate. destruct (de_all _ l) eqn:D; [|discriminate]. inj E.
    apply extend_map_of; [exact I|].
    eapply de_all_forall; [|exact D]. intros [u w] [x y] G. cbn in G.
    destruct (c_de k f u) eqn:D1; [|discriminate]. destruct (borrowed_str f w); [|discriminate].
    destruct (from_hex _); [|discriminate]. injection G as -> ->. split; cbn; [eauto|exact Logic.I].
  - exact (map_sound f sk P any k c_bytes I Hk (any_sound f _) v m E).
Qed.
Lemma byte_values_json {K} f (sk : K -> list N) (k : codec K) : textual k -> json f (c_byte_values sk k).
Proof.
  intros T E m. unfold c_byte_values. cbn [c_ser]. rewrite E. constructor. apply Forall_forall. intros v Hv.
  apply in_map_iff in Hv as (x & <- & _). split; [apply T; exact E|constructor].
Qed.

Lemma dleq_back f : back f wf_dleq c_dleq.
Proof.
  intros b H. unfold wf_dleq in H. unfold c_dleq. cbn [c_ser c_de].
  assert (L : (blen b =? 64) = true) by (unfold blen; apply N.eqb_eq; lia).
  destruct (f_hr f); [rewrite from_to_hex|]; now rewrite L.
Qed.
Lemma dleq_sound f : sound f wf_dleq c_dleq.
Proof.
  intros v b E. unfold c_dleq in E. cbn [c_de] in E. unfold wf_dleq.
  destruct (f_hr f); destruct v; try discriminate.
  - destruct (from_hex s); [|discriminate]. destruct (blen b0 =? 64) eqn:L; [|discriminate]. inj E.
    apply N.eqb_eq in L. unfold blen in L. lia.
  - destruct (blen b0 =? 64) eqn:L; [|discriminate]. inj E. apply N.eqb_eq in L. unfold blen in L. lia.
Qed.
Lemma dleq_json f : json f c_dleq.
Proof. intros E b. unfold c_dleq. cbn [c_ser]. rewrite E. constructor. Qed.

(** ** Structs *)
Lemma req_field_some {A} (c : codec A) f n l v a : field n l = Some v -> c_de c f v = Some a -> req_field c f n l = Some a.
Proof. unfold req_field. now intros ->. Qed.
Lemma opt_field_some {A} (c : codec A) f n l v a : field n l = Some v -> c_de (c_opt c) f v = Some a -> opt_field c f n l = Some a.
Proof. unfold opt_field. now intros ->. Qed.
Lemma req_field_sound {A} f (ok : A -> Prop) c n l a : sound f ok c -> req_field c f n l = Some a -> ok a.
Proof. unfold req_field. intros H E. destruct (field n l); [|discriminate]. eauto. Qed.
Lemma opt_field_sound {A} f (ok : A -> Prop) c n l a : sound f ok c -> opt_field c f n l = Some a -> opt_of ok a.
Proof.
  unfold opt_field. intros H E. destruct (field n l); [|inj E; exact I]. eapply (opt_sound f ok c); eauto.
Qed.
Lemma struct_json l : Forall (fun x => json_doc (snd x)) l -> json_doc (ser_struct l).
Proof.
  intros H. constructor. apply Forall_forall. intros v Hv. apply in_map_iff in Hv as ([n w] & <- & Hi). cbn.
  rewrite Forall_forall in H. split; [now exists n|apply (H _ Hi)].
Qed.

Lemma sighash_back f : back f wf_u32 c_sighash_type.
Proof. intros n H. unfold c_sighash_type. cbn. unfold wf_u32 in H. apply N.ltb_lt in H. now rewrite H. Qed.
Lemma sighash_sound f : sound f wf_u32 c_sighash_type.
Proof.
  intros v n E. unfold c_sighash_type in E. cbn [c_de] in E. destruct (struct_fields _ _); [|discriminate].
  eapply req_field_sound; [|exact E]. apply num_sound.
Qed.
Lemma sighash_json f : json f c_sighash_type.
Proof. intros _ n. apply struct_json. repeat constructor. Qed.
Lemma sighash_some f : some_val f c_sighash_type.
Proof. intros n. discriminate. Qed.
Lemma num_some f b : some_val f (c_num b).
Proof. intros n. discriminate. Qed.
Lemma bytes_some f : some_val f c_bytes.
Proof. intros n. discriminate. Qed.

Lemma key_back f : back f any c_key.
Proof.
  intros [t d] _. unfold c_key. cbn [c_ser c_de k_type k_data].
  pose proof (byte_back f t I) as Ht. pose proof (hex_back f d I) as Hd.
  destruct (c_ser c_byte f t) eqn:Et; try discriminate.
  set (w := c_ser c_hex f d) in *. clearbody w. cbn -[c_de]. unfold req_field. cbn -[c_de]. now rewrite Ht, Hd.
Qed.
Lemma propkey_back f : back f any c_propkey.
Proof.
  intros [p t d] _. unfold c_propkey. cbn [c_ser c_de pk_prefix pk_subtype pk_key].
  pose proof (byte_back f t I) as Ht. pose proof (hex_back f d I) as Hd. pose proof (hex_back f p I) as Hp.
  set (u := c_ser c_byte f t) in *. set (w := c_ser c_hex f d) in *. set (z := c_ser c_hex f p) in *. clearbody u w z.
  cbn -[c_de]. unfold req_field. cbn -[c_de]. now rewrite Ht, Hd, Hp.
Qed.
Lemma rawpair_back f : back f any c_raw_pair.
Proof.
  intros [k d] _. unfold c_raw_pair. cbn [c_ser c_de p_key p_value].
  pose proof (key_back f k I) as Ht. pose proof (hex_back f d I) as Hd.
  set (u := c_ser c_key f k) in *. set (w := c_ser c_hex f d) in *. clearbody u w.
  cbn -[c_de]. unfold req_field. cbn -[c_de]. now rewrite Ht, Hd.
Qed.
Lemma key_json f : json f c_key.
Proof. intros E k. apply struct_json. repeat constructor. cbn [snd]. now apply hex_json. Qed.
Lemma propkey_json f : json f c_propkey.
Proof. intros E k. apply struct_json. repeat constructor; cbn [snd]; now apply hex_json. Qed.

(** ** Fields by name *)

(** [a] and [b] give the same fields, but for optional ones that are absent in [a] and null
    in [b]. *)
Definition agree (members : list (string * bool)) (a b : list (bytes * sval)) : Prop :=
  forall n, field n a = field n b
  \/ (existsb (fun m => bytes_eqb (str (fst m)) n && snd m) members = true /\ field n a = None /\ field n b = Some SNull).
(** A deserializer of a struct sees the fields only through their names. *)
Definition lookup {A} (names : list bytes) (members : list (string * bool)) (de : fmt -> sval -> option A) : Prop :=
  exists build : fmt -> list (bytes * sval) -> option A,
    (forall f v, de f v = match struct_fields names v with Some l => build f l | None => None end)
    /\ (forall f l l', agree members l l' -> build f l = build f l')
    /\ names = map (fun m => str (fst m)) members
    /\ (forall f l x, build f l = Some x -> forall m, In (m, false) members -> field (str m) l <> None).

Lemma req_agree {A} (c : codec A) ms f n l l' :
  agree ms l l' -> existsb (fun m => bytes_eqb (str (fst m)) n && snd m) ms = false ->
  req_field c f n l = req_field c f n l'.
Proof. intros H E. unfold req_field. destruct (H n) as [->|(G & _)]; [reflexivity|]. congruence. Qed.
Lemma opt_agree {A} (c : codec A) ms f n l l' :
  agree ms l l' -> opt_field c f n l = opt_field c f n l'.
Proof. intros H. unfold opt_field. destruct (H n) as [->|(_ & -> & ->)]; reflexivity. Qed.
Lemma req_present {A} (c : codec A) f n l a : req_field c f n l = Some a -> field n l <> None.
Proof. unfold req_field. destruct (field n l); [discriminate|]. discriminate. Qed.

Section Facts.
Context `{X : Ext} `{C : Cfg} `{SX : SerdeExt} {LS : SerdeLaws X SX}.

Lemma keysource_back f : back f typed_keysource c_keysource.
Proof.
  intros [fp p] [H1 H2]. unfold c_keysource. cbn [c_ser c_de ks_fp ks_path] in *.
  rewrite (pair_back f (has_len 4) (Forall wf_u32)); [reflexivity| | |split; assumption].
  - exact (fback _ _ sl_fingerprint f).
  - exact (fback _ _ sl_path f).
Qed.
Lemma keysource_sound f : sound f typed_keysource c_keysource.
Proof.
  intros v k E. unfold c_keysource in E. cbn [c_de] in E. destruct (c_de (c_pair _ _) f v) eqn:D; [|discriminate].
  inj E. exact (pair_sound f _ _ _ _ (fsound _ _ sl_fingerprint f) (fsound _ _ sl_path f) _ _ D).
Qed.
Lemma keysource_json f : json f c_keysource.
Proof. intros E k. unfold c_keysource. cbn [c_ser]. apply pair_json; [| |exact E]; [exact (fjson _ _ sl_fingerprint f)|exact (fjson _ _ sl_path f)]. Qed.

Lemma xleaf_back f : back f wf_xleaf (c_pair xc_xonly xc_leaf_hash).
Proof. exact (pair_back f _ _ _ _ (fback _ _ sl_xonly f) (fback _ _ sl_leaf_hash f)). Qed.
Lemma xleaf_sound f : sound f wf_xleaf (c_pair xc_xonly xc_leaf_hash).
Proof. exact (pair_sound f _ _ _ _ (fsound _ _ sl_xonly f) (fsound _ _ sl_leaf_hash f)). Qed.
Lemma xleaf_json f : json f (c_pair xc_xonly xc_leaf_hash).
Proof. exact (pair_json f _ _ (fjson _ _ sl_xonly f) (fjson _ _ sl_leaf_hash f)). Qed.
Lemma leafscript_back f : back f typed_leafscript (c_pair xc_script xc_leaf_version).
Proof.
  eapply back_weaken; [|exact (pair_back f _ _ _ _ (fback _ _ sl_script f) (fback _ _ sl_leaf_version f))].
  intros x H. split; [exact I|exact H].
Qed.
Lemma leafscript_sound f : sound f typed_leafscript (c_pair xc_script xc_leaf_version).
Proof.
  eapply sound_weaken; [|exact (pair_sound f _ _ _ _ (fsound _ _ sl_script f) (fsound _ _ sl_leaf_version f))].
  intros x [_ H]. exact H.
Qed.
Lemma leafscript_json f : json f (c_pair xc_script xc_leaf_version).
Proof. exact (pair_json f _ _ (fjson _ _ sl_script f) (fjson _ _ sl_leaf_version f)). Qed.
Lemma origin_back f : back f typed_taporigin (c_pair (c_vec xc_leaf_hash) c_keysource).
Proof. exact (pair_back f _ _ _ _ (vec_back f _ _ (fback _ _ sl_leaf_hash f)) (keysource_back f)). Qed.
Lemma origin_sound f : sound f typed_taporigin (c_pair (c_vec xc_leaf_hash) c_keysource).
Proof. exact (pair_sound f _ _ _ _ (vec_sound f _ _ (fsound _ _ sl_leaf_hash f)) (keysource_sound f)). Qed.
Lemma origin_json f : json f (c_pair (c_vec xc_leaf_hash) c_keysource).
Proof. exact (pair_json f _ _ (vec_json f _ (fjson _ _ sl_leaf_hash f)) (keysource_json f)). Qed.


Lemma tap_tree_back f o : opt_of typed_taptree o ->
  exists o', c_de (c_opt xc_tap_tree) f (c_ser (c_opt xc_tap_tree) f o) = Some o' /\ option_map ni_hash o' = option_map ni_hash o.
Proof.
  destruct o as [t|]; cbn [opt_of]; intros H; [|now exists None].
  destruct (sl_tap_tree_back f t H) as (t' & E & Et). exists (Some t'). split; [|cbn; now rewrite Et].
  cbn [c_opt c_de c_ser]. pose proof (sl_tap_tree_some f t). rewrite E. now destruct (c_ser xc_tap_tree f t).
Qed.

Ltac field_step :=
  match goal with
  | |- context [struct_fields ?n ?s] => let r := eval vm_compute in (struct_fields n s) in change (struct_fields n s) with r; cbv iota beta
  end.
Ltac lookup_step :=
  match goal with
  | |- context [field ?n ?l] => let r := eval vm_compute in (field n l) in change (field n l) with r; cbv iota beta
  end.

Lemma global_vals f v0 v1 v2 v3 v4 v5 v6 v7 v8 v9 v10 a0 a1 a2 a3 a4 a5 a6 a7 a8 a9 a10 :
  c_de c_version f v0 = Some a0 ->
  c_de xc_tx_version f v1 = Some a1 ->
  c_de (c_opt xc_lock_time) f v2 = Some a2 ->
  c_de c_u8 f v3 = Some a3 ->
  c_de c_u64 f v4 = Some a4 ->
  c_de c_u64 f v5 = Some a5 ->
  c_de (c_map sk_xpub xc_xpub c_keysource) f v6 = Some a6 ->
  (if feat_sp then c_de (c_as_seq bkey xc_cpk xc_cpk) f v7 = Some a7 else a7 = []) ->
  (if feat_sp then c_de (c_as_seq bkey xc_cpk c_dleq) f v8 = Some a8 else a8 = []) ->
  c_de (c_seq_byte_values sk_propkey c_propkey) f v9 = Some a9 ->
  c_de (c_seq_byte_values sk_key c_key) f v10 = Some a10 ->
  de_global f (ser_struct ([(str "version", v0); (str "tx_version", v1); (str "fallback_lock_time", v2); (str "tx_modifiable_flags", v3); (str "input_count", v4); (str "output_count", v5); (str "xpubs", v6)] ++ sp_fields [(str "sp_ecdh_shares", v7)] ++ sp_fields [(str "sp_dleq_proofs", v8)] ++ [(str "proprietaries", v9); (str "unknowns", v10)])) = Some (Global a0 a1 a2 a3 a4 a5 a6 a7 a8 a9 a10).
Proof.
  intros H0 H1 H2 H3 H4 H5 H6 H7 H8 H9 H10.
  unfold de_global, global_fields, sp_req_field, sp_opt_field, sp_fields, req_field, opt_field in *.
  destruct feat_sp.
  - field_step. lookup_step. rewrite H0. lookup_step. rewrite H1. lookup_step. rewrite H2. lookup_step. rewrite H3. lookup_step. rewrite H4. lookup_step. rewrite H5. lookup_step. rewrite H6. lookup_step. rewrite H7. lookup_step. rewrite H8. lookup_step. rewrite H9. lookup_step. rewrite H10. reflexivity.
  - field_step. lookup_step. rewrite H0. lookup_step. rewrite H1. lookup_step. rewrite H2. lookup_step. rewrite H3. lookup_step. rewrite H4. lookup_step. rewrite H5. lookup_step. rewrite H6. lookup_step. rewrite H9. lookup_step. rewrite H10. subst. reflexivity.
Qed.
Lemma global_vals_inv f v0 v1 v2 v3 v4 v5 v6 v7 v8 v9 v10 x :
  de_global f (ser_struct ([(str "version", v0); (str "tx_version", v1); (str "fallback_lock_time", v2); (str "tx_modifiable_flags", v3); (str "input_count", v4); (str "output_count", v5); (str "xpubs", v6)] ++ sp_fields [(str "sp_ecdh_shares", v7)] ++ sp_fields [(str "sp_dleq_proofs", v8)] ++ [(str "proprietaries", v9); (str "unknowns", v10)])) = Some x ->
  c_de c_version f v0 = Some (g_version x) /\
  c_de xc_tx_version f v1 = Some (g_tx_version x) /\
  c_de (c_opt xc_lock_time) f v2 = Some (g_fallback_lock_time x) /\
  c_de c_u8 f v3 = Some (g_tx_modifiable_flags x) /\
  c_de c_u64 f v4 = Some (g_input_count x) /\
  c_de c_u64 f v5 = Some (g_output_count x) /\
  c_de (c_map sk_xpub xc_xpub c_keysource) f v6 = Some (g_xpubs x) /\
  (if feat_sp then c_de (c_as_seq bkey xc_cpk xc_cpk) f v7 = Some (g_sp_ecdh_shares x) else g_sp_ecdh_shares x = []) /\
  (if feat_sp then c_de (c_as_seq bkey xc_cpk c_dleq) f v8 = Some (g_sp_dleq_proofs x) else g_sp_dleq_proofs x = []) /\
  c_de (c_seq_byte_values sk_propkey c_propkey) f v9 = Some (g_proprietaries x) /\
  c_de (c_seq_byte_values sk_key c_key) f v10 = Some (g_unknowns x).
Proof.
  unfold de_global, global_fields, sp_req_field, sp_opt_field, sp_fields, req_field, opt_field.
  destruct feat_sp.
  - field_step. lookup_step. destruct (c_de c_version f v0) as [a0|]; [|discriminate]. lookup_step. destruct (c_de xc_tx_version f v1) as [a1|]; [|discriminate]. lookup_step. destruct (c_de (c_opt xc_lock_time) f v2) as [a2|]; [|discriminate]. lookup_step. destruct (c_de c_u8 f v3) as [a3|]; [|discriminate]. lookup_step. destruct (c_de c_u64 f v4) as [a4|]; [|discriminate]. lookup_step. destruct (c_de c_u64 f v5) as [a5|]; [|discriminate]. lookup_step. destruct (c_de (c_map sk_xpub xc_xpub c_keysource) f v6) as [a6|]; [|discriminate]. lookup_step. destruct (c_de (c_as_seq bkey xc_cpk xc_cpk) f v7) as [a7|]; [|discriminate]. lookup_step. destruct (c_de (c_as_seq bkey xc_cpk c_dleq) f v8) as [a8|]; [|discriminate]. lookup_step. destruct (c_de (c_seq_byte_values sk_propkey c_propkey) f v9) as [a9|]; [|discriminate]. lookup_step. destruct (c_de (c_seq_byte_values sk_key c_key) f v10) as [a10|]; [|discriminate]. intros E; injection E as <-; auto 40.
  - field_step. lookup_step. destruct (c_de c_version f v0) as [a0|]; [|discriminate]. lookup_step. destruct (c_de xc_tx_version f v1) as [a1|]; [|discriminate]. lookup_step. destruct (c_de (c_opt xc_lock_time) f v2) as [a2|]; [|discriminate]. lookup_step. destruct (c_de c_u8 f v3) as [a3|]; [|discriminate]. lookup_step. destruct (c_de c_u64 f v4) as [a4|]; [|discriminate]. lookup_step. destruct (c_de c_u64 f v5) as [a5|]; [|discriminate]. lookup_step. destruct (c_de (c_map sk_xpub xc_xpub c_keysource) f v6) as [a6|]; [|discriminate]. lookup_step. destruct (c_de (c_seq_byte_values sk_propkey c_propkey) f v9) as [a9|]; [|discriminate]. lookup_step. destruct (c_de (c_seq_byte_values sk_key c_key) f v10) as [a10|]; [|discriminate]. intros E; injection E as <-; auto 40.
Qed.
Definition build_global (f : fmt) (l : list (bytes * sval)) : option global :=
  a0 <~ req_field c_version f (str "version") l ;;
  a1 <~ req_field xc_tx_version f (str "tx_version") l ;;
  a2 <~ opt_field xc_lock_time f (str "fallback_lock_time") l ;;
  a3 <~ req_field c_u8 f (str "tx_modifiable_flags") l ;;
  a4 <~ req_field c_u64 f (str "input_count") l ;;
  a5 <~ req_field c_u64 f (str "output_count") l ;;
  a6 <~ req_field (c_map sk_xpub xc_xpub c_keysource) f (str "xpubs") l ;;
  a7 <~ sp_req_field [] (c_as_seq bkey xc_cpk xc_cpk) f (str "sp_ecdh_shares") l ;;
  a8 <~ sp_req_field [] (c_as_seq bkey xc_cpk c_dleq) f (str "sp_dleq_proofs") l ;;
  a9 <~ req_field (c_seq_byte_values sk_propkey c_propkey) f (str "proprietaries") l ;;
  a10 <~ req_field (c_seq_byte_values sk_key c_key) f (str "unknowns") l ;;
  Some (Global a0 a1 a2 a3 a4 a5 a6 a7 a8 a9 a10).
Lemma global_lookup : lookup global_fields global_members de_global.
Proof.
  exists build_global. split; [reflexivity|split; [|split; [unfold global_fields, global_members, sp_fields; destruct feat_sp; reflexivity|]]].
  - unfold global_members. destruct feat_sp eqn:FS; cbn [app].
    + intros f l l' H. unfold build_global, sp_req_field, sp_opt_field. rewrite FS. rewrite (req_agree _ _ f (str "version") l l' H eq_refl). rewrite (req_agree _ _ f (str "tx_version") l l' H eq_refl). rewrite (opt_agree _ _ f (str "fallback_lock_time") l l' H). rewrite (req_agree _ _ f (str "tx_modifiable_flags") l l' H eq_refl). rewrite (req_agree _ _ f (str "input_count") l l' H eq_refl). rewrite (req_agree _ _ f (str "output_count") l l' H eq_refl). rewrite (req_agree _ _ f (str "xpubs") l l' H eq_refl). rewrite (req_agree _ _ f (str "sp_ecdh_shares") l l' H eq_refl). rewrite (req_agree _ _ f (str "sp_dleq_proofs") l l' H eq_refl). rewrite (req_agree _ _ f (str "proprietaries") l l' H eq_refl). rewrite (req_agree _ _ f (str "unknowns") l l' H eq_refl). reflexivity.
    + intros f l l' H. unfold build_global, sp_req_field, sp_opt_field. rewrite FS. rewrite (req_agree _ _ f (str "version") l l' H eq_refl). rewrite (req_agree _ _ f (str "tx_version") l l' H eq_refl). rewrite (opt_agree _ _ f (str "fallback_lock_time") l l' H). rewrite (req_agree _ _ f (str "tx_modifiable_flags") l l' H eq_refl). rewrite (req_agree _ _ f (str "input_count") l l' H eq_refl). rewrite (req_agree _ _ f (str "output_count") l l' H eq_refl). rewrite (req_agree _ _ f (str "xpubs") l l' H eq_refl). rewrite (req_agree _ _ f (str "proprietaries") l l' H eq_refl). rewrite (req_agree _ _ f (str "unknowns") l l' H eq_refl). reflexivity.
  - unfold global_members. destruct feat_sp eqn:FS; cbn [app].
    + intros f l x E. unfold build_global, sp_req_field, sp_opt_field in E. rewrite FS in E. match type of E with match ?t with _ => _ end = _ => destruct t as [a0|] eqn:E0; [|discriminate] end. match type of E with match ?t with _ => _ end = _ => destruct t as [a1|] eqn:E1; [|discriminate] end. match type of E with match ?t with _ => _ end = _ => destruct t as [a2|] eqn:E2; [|discriminate] end. match type of E with match ?t with _ => _ end = _ => destruct t as [a3|] eqn:E3; [|discriminate] end. match type of E with match ?t with _ => _ end = _ => destruct t as [a4|] eqn:E4; [|discriminate] end. match type of E with match ?t with _ => _ end = _ => destruct t as [a5|] eqn:E5; [|discriminate] end. match type of E with match ?t with _ => _ end = _ => destruct t as [a6|] eqn:E6; [|discriminate] end. match type of E with match ?t with _ => _ end = _ => destruct t as [a7|] eqn:E7; [|discriminate] end. match type of E with match ?t with _ => _ end = _ => destruct t as [a8|] eqn:E8; [|discriminate] end. match type of E with match ?t with _ => _ end = _ => destruct t as [a9|] eqn:E9; [|discriminate] end. match type of E with match ?t with _ => _ end = _ => destruct t as [a10|] eqn:E10; [|discriminate] end. intros m Hm. cbn [In] in Hm. repeat (destruct Hm as [Hm|Hm]; [|]); try (injection Hm as <-); try contradiction; first [discriminate | eapply req_present; eassumption].
    + intros f l x E. unfold build_global, sp_req_field, sp_opt_field in E. rewrite FS in E. match type of E with match ?t with _ => _ end = _ => destruct t as [a0|] eqn:E0; [|discriminate] end. match type of E with match ?t with _ => _ end = _ => destruct t as [a1|] eqn:E1; [|discriminate] end. match type of E with match ?t with _ => _ end = _ => destruct t as [a2|] eqn:E2; [|discriminate] end. match type of E with match ?t with _ => _ end = _ => destruct t as [a3|] eqn:E3; [|discriminate] end. match type of E with match ?t with _ => _ end = _ => destruct t as [a4|] eqn:E4; [|discriminate] end. match type of E with match ?t with _ => _ end = _ => destruct t as [a5|] eqn:E5; [|discriminate] end. match type of E with match ?t with _ => _ end = _ => destruct t as [a6|] eqn:E6; [|discriminate] end. match type of E with match ?t with _ => _ end = _ => destruct t as [a9|] eqn:E9; [|discriminate] end. match type of E with match ?t with _ => _ end = _ => destruct t as [a10|] eqn:E10; [|discriminate] end. intros m Hm. cbn [In] in Hm. repeat (destruct Hm as [Hm|Hm]; [|]); try (injection Hm as <-); try contradiction; first [discriminate | eapply req_present; eassumption].
Qed.
Lemma global_json f : json f c_global.
Proof.
  intros E x. apply struct_json. unfold sp_fields.
  destruct feat_sp; cbn [app].
  - constructor; [exact ((num_json f U32) E _)|]. constructor; [exact ((fjson _ _ sl_tx_version f) E _)|]. constructor; [exact ((opt_json f _ (fjson _ _ sl_lock_time f)) E _)|]. constructor; [exact ((num_json f 256) E _)|]. constructor; [exact ((num_json f U64) E _)|]. constructor; [exact ((num_json f U64) E _)|]. constructor; [exact ((map_json f sk_xpub _ _ sl_xpub_text (keysource_json f)) E _)|]. constructor; [exact ((as_seq_json f bkey _ _ (fjson _ _ sl_cpk f) (fjson _ _ sl_cpk f)) E _)|]. constructor; [exact ((as_seq_json f bkey _ _ (fjson _ _ sl_cpk f) (dleq_json f)) E _)|]. constructor; [exact ((seq_bytes_json f sk_propkey _ (propkey_json f)) E _)|]. constructor; [exact ((seq_bytes_json f sk_key _ (key_json f)) E _)|]. constructor.
  - constructor; [exact ((num_json f U32) E _)|]. constructor; [exact ((fjson _ _ sl_tx_version f) E _)|]. constructor; [exact ((opt_json f _ (fjson _ _ sl_lock_time f)) E _)|]. constructor; [exact ((num_json f 256) E _)|]. constructor; [exact ((num_json f U64) E _)|]. constructor; [exact ((num_json f U64) E _)|]. constructor; [exact ((map_json f sk_xpub _ _ sl_xpub_text (keysource_json f)) E _)|]. constructor; [exact ((seq_bytes_json f sk_propkey _ (propkey_json f)) E _)|]. constructor; [exact ((seq_bytes_json f sk_key _ (key_json f)) E _)|]. constructor.
Qed.
Lemma global_sound f : sound f typed_global c_global.
Proof.
  intros v x E. cbn [c_de c_global] in E. unfold de_global in E.
  destruct (struct_fields global_fields v) as [l|]; [|discriminate].
  match type of E with match ?t with _ => _ end = _ => destruct t as [a0|] eqn:E0; [|discriminate] end.
  match type of E with match ?t with _ => _ end = _ => destruct t as [a1|] eqn:E1; [|discriminate] end.
  match type of E with match ?t with _ => _ end = _ => destruct t as [a2|] eqn:E2; [|discriminate] end.
  match type of E with match ?t with _ => _ end = _ => destruct t as [a3|] eqn:E3; [|discriminate] end.
  match type of E with match ?t with _ => _ end = _ => destruct t as [a4|] eqn:E4; [|discriminate] end.
  match type of E with match ?t with _ => _ end = _ => destruct t as [a5|] eqn:E5; [|discriminate] end.
  match type of E with match ?t with _ => _ end = _ => destruct t as [a6|] eqn:E6; [|discriminate] end.
  match type of E with match ?t with _ => _ end = _ => destruct t as [a7|] eqn:E7; [|discriminate] end.
  match type of E with match ?t with _ => _ end = _ => destruct t as [a8|] eqn:E8; [|discriminate] end.
  match type of E with match ?t with _ => _ end = _ => destruct t as [a9|] eqn:E9; [|discriminate] end.
  match type of E with match ?t with _ => _ end = _ => destruct t as [a10|] eqn:E10; [|discriminate] end.
  injection E as <-. constructor; cbn [g_version g_tx_version g_fallback_lock_time g_tx_modifiable_flags g_input_count g_output_count g_xpubs g_sp_ecdh_shares g_sp_dleq_proofs g_proprietaries g_unknowns].
  - exact (req_field_sound f _ _ _ _ _ (num_sound f U32) E0).
  - exact (req_field_sound f _ _ _ _ _ (fsound _ _ sl_tx_version f) E1).
  - exact (opt_field_sound f _ _ _ _ _ (fsound _ _ sl_lock_time f) E2).
  - exact (req_field_sound f _ _ _ _ _ (num_sound f 256) E3).
  - exact (req_field_sound f _ _ _ _ _ (num_sound f U64) E4).
  - exact (req_field_sound f _ _ _ _ _ (num_sound f U64) E5).
  - exact (req_field_sound f _ _ _ _ _ (map_sound f sk_xpub _ _ _ _ sk_xpub_inj (fsound _ _ sl_xpub f) (keysource_sound f)) E6).
  - unfold sp_field. unfold sp_req_field in E7. destruct feat_sp; [exact (req_field_sound f _ _ _ _ _ (as_seq_sound f bkey _ _ _ _ bkey_inj (fsound _ _ sl_cpk f) (fsound _ _ sl_cpk f)) E7)|now injection E7].
  - unfold sp_field. unfold sp_req_field in E8. destruct feat_sp; [exact (req_field_sound f _ _ _ _ _ (as_seq_sound f bkey _ _ _ _ bkey_inj (fsound _ _ sl_cpk f) (dleq_sound f)) E8)|now injection E8].
  - exact (req_field_sound f _ _ _ _ _ (seq_bytes_sound f sk_propkey _ _ sk_propkey_inj (any_sound f _)) E9).
  - exact (req_field_sound f _ _ _ _ _ (seq_bytes_sound f sk_key _ _ sk_key_inj (any_sound f _)) E10).
Qed.
Lemma global_back f x : typed_global x -> de_global f (ser_global f x) = Some x.
Proof.
  intros T.
  assert (EX : x = Global (g_version x) (g_tx_version x) (g_fallback_lock_time x) (g_tx_modifiable_flags x) (g_input_count x) (g_output_count x) (g_xpubs x) (g_sp_ecdh_shares x) (g_sp_dleq_proofs x) (g_proprietaries x) (g_unknowns x)) by (destruct x; reflexivity).
  rewrite EX at 2. unfold ser_global. apply global_vals.
  - exact ((num_back f U32) _ (tyg_version _ T)).
  - exact ((fback _ _ sl_tx_version f) _ (tyg_tx_version _ T)).
  - exact (opt_back f _ _ (fback _ _ sl_lock_time f) (fsome _ _ sl_lock_time f) _ (tyg_fallback_lock_time _ T)).
  - exact ((num_back f 256) _ (tyg_tx_modifiable_flags _ T)).
  - exact ((num_back f U64) _ (tyg_input_count _ T)).
  - exact ((num_back f U64) _ (tyg_output_count _ T)).
  - exact ((map_back f sk_xpub _ _ _ _ sk_xpub_inj (fback _ _ sl_xpub f) (keysource_back f)) _ (tyg_xpubs _ T)).
  - pose proof (tyg_sp_ecdh_shares _ T) as Q; unfold sp_field in Q; destruct feat_sp; [exact ((as_seq_back f bkey _ _ _ _ bkey_inj (fback _ _ sl_cpk f) (fback _ _ sl_cpk f)) _ Q)|exact Q].
  - pose proof (tyg_sp_dleq_proofs _ T) as Q; unfold sp_field in Q; destruct feat_sp; [exact ((as_seq_back f bkey _ _ _ _ bkey_inj (fback _ _ sl_cpk f) (dleq_back f)) _ Q)|exact Q].
  - exact ((seq_bytes_back f sk_propkey _ _ sk_propkey_inj (propkey_back f)) _ (tyg_proprietaries _ T)).
  - exact ((seq_bytes_back f sk_key _ _ sk_key_inj (key_back f)) _ (tyg_unknowns _ T)).
Qed.
Lemma input_vals f v0 v1 v2 v3 v4 v5 v6 v7 v8 v9 v10 v11 v12 v13 v14 v15 v16 v17 v18 v19 v20 v21 v22 v23 v24 v25 v26 v27 a0 a1 a2 a3 a4 a5 a6 a7 a8 a9 a10 a11 a12 a13 a14 a15 a16 a17 a18 a19 a20 a21 a22 a23 a24 a25 a26 a27 :
  c_de xc_txid f v0 = Some a0 ->
  c_de c_u32 f v1 = Some a1 ->
  c_de (c_opt xc_sequence) f v2 = Some a2 ->
  c_de (c_opt xc_time) f v3 = Some a3 ->
  c_de (c_opt xc_height) f v4 = Some a4 ->
  c_de (c_opt xc_tx) f v5 = Some a5 ->
  c_de (c_opt xc_txout) f v6 = Some a6 ->
  c_de (c_map sk_pubkey xc_pubkey xc_esig) f v7 = Some a7 ->
  c_de (c_opt c_sighash_type) f v8 = Some a8 ->
  c_de (c_opt xc_script) f v9 = Some a9 ->
  c_de (c_opt xc_script) f v10 = Some a10 ->
  c_de (c_as_seq bkey xc_secp c_keysource) f v11 = Some a11 ->
  c_de (c_opt xc_script) f v12 = Some a12 ->
  c_de (c_opt xc_witness) f v13 = Some a13 ->
  c_de (c_byte_values bkey xc_ripemd160) f v14 = Some a14 ->
  c_de (c_byte_values bkey xc_sha256) f v15 = Some a15 ->
  c_de (c_byte_values bkey xc_hash160) f v16 = Some a16 ->
  c_de (c_byte_values bkey xc_sha256d) f v17 = Some a17 ->
  c_de (c_opt xc_tsig) f v18 = Some a18 ->
  c_de (c_as_seq sk_xleaf (c_pair xc_xonly xc_leaf_hash) xc_tsig) f v19 = Some a19 ->
  c_de (c_as_seq sk_controlblock xc_control_block (c_pair xc_script xc_leaf_version)) f v20 = Some a20 ->
  c_de (c_as_seq bkey xc_xonly (c_pair (c_vec xc_leaf_hash) c_keysource)) f v21 = Some a21 ->
  c_de (c_opt xc_xonly) f v22 = Some a22 ->
  c_de (c_opt xc_node_hash) f v23 = Some a23 ->
  (if feat_sp then c_de (c_as_seq bkey xc_cpk xc_cpk) f v24 = Some a24 else a24 = []) ->
  (if feat_sp then c_de (c_as_seq bkey xc_cpk c_dleq) f v25 = Some a25 else a25 = []) ->
  c_de (c_seq_byte_values sk_propkey c_propkey) f v26 = Some a26 ->
  c_de (c_seq_byte_values sk_key c_key) f v27 = Some a27 ->
  de_input f (ser_struct ([(str "previous_txid", v0); (str "spent_output_index", v1); (str "sequence", v2); (str "min_time", v3); (str "min_height", v4); (str "non_witness_utxo", v5); (str "witness_utxo", v6); (str "partial_sigs", v7); (str "sighash_type", v8); (str "redeem_script", v9); (str "witness_script", v10); (str "bip32_derivations", v11); (str "final_script_sig", v12); (str "final_script_witness", v13); (str "ripemd160_preimages", v14); (str "sha256_preimages", v15); (str "hash160_preimages", v16); (str "hash256_preimages", v17); (str "tap_key_sig", v18); (str "tap_script_sigs", v19); (str "tap_scripts", v20); (str "tap_key_origins", v21); (str "tap_internal_key", v22); (str "tap_merkle_root", v23)] ++ sp_fields [(str "sp_ecdh_shares", v24)] ++ sp_fields [(str "sp_dleq_proofs", v25)] ++ [(str "proprietaries", v26); (str "unknowns", v27)])) = Some (Input a0 a1 a2 a3 a4 a5 a6 a7 a8 a9 a10 a11 a12 a13 a14 a15 a16 a17 a18 a19 a20 a21 a22 a23 a24 a25 a26 a27).
Proof.
  intros H0 H1 H2 H3 H4 H5 H6 H7 H8 H9 H10 H11 H12 H13 H14 H15 H16 H17 H18 H19 H20 H21 H22 H23 H24 H25 H26 H27.
  unfold de_input, input_fields, sp_req_field, sp_opt_field, sp_fields, req_field, opt_field in *.
  destruct feat_sp.
  - field_step. lookup_step. rewrite H0. lookup_step. rewrite H1. lookup_step. rewrite H2. lookup_step. rewrite H3. lookup_step. rewrite H4. lookup_step. rewrite H5. lookup_step. rewrite H6. lookup_step. rewrite H7. lookup_step. rewrite H8. lookup_step. rewrite H9. lookup_step. rewrite H10. lookup_step. rewrite H11. lookup_step. rewrite H12. lookup_step. rewrite H13. lookup_step. rewrite H14. lookup_step. rewrite H15. lookup_step. rewrite H16. lookup_step. rewrite H17. lookup_step. rewrite H18. lookup_step. rewrite H19. lookup_step. rewrite H20. lookup_step. rewrite H21. lookup_step. rewrite H22. lookup_step. rewrite H23. lookup_step. rewrite H24. lookup_step. rewrite H25. lookup_step. rewrite H26. lookup_step. rewrite H27. reflexivity.
  - field_step. lookup_step. rewrite H0. lookup_step. rewrite H1. lookup_step. rewrite H2. lookup_step. rewrite H3. lookup_step. rewrite H4. lookup_step. rewrite H5. lookup_step. rewrite H6. lookup_step. rewrite H7. lookup_step. rewrite H8. lookup_step. rewrite H9. lookup_step. rewrite H10. lookup_step. rewrite H11. lookup_step. rewrite H12. lookup_step. rewrite H13. lookup_step. rewrite H14. lookup_step. rewrite H15. lookup_step. rewrite H16. lookup_step. rewrite H17. lookup_step. rewrite H18. lookup_step. rewrite H19. lookup_step. rewrite H20. lookup_step. rewrite H21. lookup_step. rewrite H22. lookup_step. rewrite H23. lookup_step. rewrite H26. lookup_step. rewrite H27. subst. reflexivity.
Qed.
Lemma input_vals_inv f v0 v1 v2 v3 v4 v5 v6 v7 v8 v9 v10 v11 v12 v13 v14 v15 v16 v17 v18 v19 v20 v21 v22 v23 v24 v25 v26 v27 x :
  de_input f (ser_struct ([(str "previous_txid", v0); (str "spent_output_index", v1); (str "sequence", v2); (str "min_time", v3); (str "min_height", v4); (str "non_witness_utxo", v5); (str "witness_utxo", v6); (str "partial_sigs", v7); (str "sighash_type", v8); (str "redeem_script", v9); (str "witness_script", v10); (str "bip32_derivations", v11); (str "final_script_sig", v12); (str "final_script_witness", v13); (str "ripemd160_preimages", v14); (str "sha256_preimages", v15); (str "hash160_preimages", v16); (str "hash256_preimages", v17); (str "tap_key_sig", v18); (str "tap_script_sigs", v19); (str "tap_scripts", v20); (str "tap_key_origins", v21); (str "tap_internal_key", v22); (str "tap_merkle_root", v23)] ++ sp_fields [(str "sp_ecdh_shares", v24)] ++ sp_fields [(str "sp_dleq_proofs", v25)] ++ [(str "proprietaries", v26); (str "unknowns", v27)])) = Some x ->
  c_de xc_txid f v0 = Some (in_previous_txid x) /\
  c_de c_u32 f v1 = Some (in_spent_output_index x) /\
  c_de (c_opt xc_sequence) f v2 = Some (in_sequence x) /\
  c_de (c_opt xc_time) f v3 = Some (in_min_time x) /\
  c_de (c_opt xc_height) f v4 = Some (in_min_height x) /\
  c_de (c_opt xc_tx) f v5 = Some (in_non_witness_utxo x) /\
  c_de (c_opt xc_txout) f v6 = Some (in_witness_utxo x) /\
  c_de (c_map sk_pubkey xc_pubkey xc_esig) f v7 = Some (in_partial_sigs x) /\
  c_de (c_opt c_sighash_type) f v8 = Some (in_sighash_type x) /\
  c_de (c_opt xc_script) f v9 = Some (in_redeem_script x) /\
  c_de (c_opt xc_script) f v10 = Some (in_witness_script x) /\
  c_de (c_as_seq bkey xc_secp c_keysource) f v11 = Some (in_bip32_derivations x) /\
  c_de (c_opt xc_script) f v12 = Some (in_final_script_sig x) /\
  c_de (c_opt xc_witness) f v13 = Some (in_final_script_witness x) /\
  c_de (c_byte_values bkey xc_ripemd160) f v14 = Some (in_ripemd160_preimages x) /\
  c_de (c_byte_values bkey xc_sha256) f v15 = Some (in_sha256_preimages x) /\
  c_de (c_byte_values bkey xc_hash160) f v16 = Some (in_hash160_preimages x) /\
  c_de (c_byte_values bkey xc_sha256d) f v17 = Some (in_hash256_preimages x) /\
  c_de (c_opt xc_tsig) f v18 = Some (in_tap_key_sig x) /\
  c_de (c_as_seq sk_xleaf (c_pair xc_xonly xc_leaf_hash) xc_tsig) f v19 = Some (in_tap_script_sigs x) /\
  c_de (c_as_seq sk_controlblock xc_control_block (c_pair xc_script xc_leaf_version)) f v20 = Some (in_tap_scripts x) /\
  c_de (c_as_seq bkey xc_xonly (c_pair (c_vec xc_leaf_hash) c_keysource)) f v21 = Some (in_tap_key_origins x) /\
  c_de (c_opt xc_xonly) f v22 = Some (in_tap_internal_key x) /\
  c_de (c_opt xc_node_hash) f v23 = Some (in_tap_merkle_root x) /\
  (if feat_sp then c_de (c_as_seq bkey xc_cpk xc_cpk) f v24 = Some (in_sp_ecdh_shares x) else in_sp_ecdh_shares x = []) /\
  (if feat_sp then c_de (c_as_seq bkey xc_cpk c_dleq) f v25 = Some (in_sp_dleq_proofs x) else in_sp_dleq_proofs x = []) /\
  c_de (c_seq_byte_values sk_propkey c_propkey) f v26 = Some (in_proprietaries x) /\
  c_de (c_seq_byte_values sk_key c_key) f v27 = Some (in_unknowns x).
Proof.
  unfold de_input, input_fields, sp_req_field, sp_opt_field, sp_fields, req_field, opt_field.
  destruct feat_sp.
  - field_step. lookup_step. destruct (c_de xc_txid f v0) as [a0|]; [|discriminate]. lookup_step. destruct (c_de c_u32 f v1) as [a1|]; [|discriminate]. lookup_step. destruct (c_de (c_opt xc_sequence) f v2) as [a2|]; [|discriminate]. lookup_step. destruct (c_de (c_opt xc_time) f v3) as [a3|]; [|discriminate]. lookup_step. destruct (c_de (c_opt xc_height) f v4) as [a4|]; [|discriminate]. lookup_step. destruct (c_de (c_opt xc_tx) f v5) as [a5|]; [|discriminate]. lookup_step. destruct (c_de (c_opt xc_txout) f v6) as [a6|]; [|discriminate]. lookup_step. destruct (c_de (c_map sk_pubkey xc_pubkey xc_esig) f v7) as [a7|]; [|discriminate]. lookup_step. destruct (c_de (c_opt c_sighash_type) f v8) as [a8|]; [|discriminate]. lookup_step. destruct (c_de (c_opt xc_script) f v9) as [a9|]; [|discriminate]. lookup_step. destruct (c_de (c_opt xc_script) f v10) as [a10|]; [|discriminate]. lookup_step. destruct (c_de (c_as_seq bkey xc_secp c_keysource) f v11) as [a11|]; [|discriminate]. lookup_step. destruct (c_de (c_opt xc_script) f v12) as [a12|]; [|discriminate]. lookup_step. destruct (c_de (c_opt xc_witness) f v13) as [a13|]; [|discriminate]. lookup_step. destruct (c_de (c_byte_values bkey xc_ripemd160) f v14) as [a14|]; [|discriminate]. lookup_step. destruct (c_de (c_byte_values bkey xc_sha256) f v15) as [a15|]; [|discriminate]. lookup_step. destruct (c_de (c_byte_values bkey xc_hash160) f v16) as [a16|]; [|discriminate]. lookup_step. destruct (c_de (c_byte_values bkey xc_sha256d) f v17) as [a17|]; [|discriminate]. lookup_step. destruct (c_de (c_opt xc_tsig) f v18) as [a18|]; [|discriminate]. lookup_step. destruct (c_de (c_as_seq sk_xleaf (c_pair xc_xonly xc_leaf_hash) xc_tsig) f v19) as [a19|]; [|discriminate]. lookup_step. destruct (c_de (c_as_seq sk_controlblock xc_control_block (c_pair xc_script xc_leaf_version)) f v20) as [a20|]; [|discriminate]. lookup_step. destruct (c_de (c_as_seq bkey xc_xonly (c_pair (c_vec xc_leaf_hash) c_keysource)) f v21) as [a21|]; [|discriminate]. lookup_step. destruct (c_de (c_opt xc_xonly) f v22) as [a22|]; [|discriminate]. lookup_step. destruct (c_de (c_opt xc_node_hash) f v23) as [a23|]; [|discriminate]. lookup_step. destruct (c_de (c_as_seq bkey xc_cpk xc_cpk) f v24) as [a24|]; [|discriminate]. lookup_step. destruct (c_de (c_as_seq bkey xc_cpk c_dleq) f v25) as [a25|]; [|discriminate]. lookup_step. destruct (c_de (c_seq_byte_values sk_propkey c_propkey) f v26) as [a26|]; [|discriminate]. lookup_step. destruct (c_de (c_seq_byte_values sk_key c_key) f v27) as [a27|]; [|discriminate]. intros E; injection E as <-; auto 40.
  - field_step. lookup_step. destruct (c_de xc_txid f v0) as [a0|]; [|discriminate]. lookup_step. destruct (c_de c_u32 f v1) as [a1|]; [|discriminate]. lookup_step. destruct (c_de (c_opt xc_sequence) f v2) as [a2|]; [|discriminate]. lookup_step. destruct (c_de (c_opt xc_time) f v3) as [a3|]; [|discriminate]. lookup_step. destruct (c_de (c_opt xc_height) f v4) as [a4|]; [|discriminate]. lookup_step. destruct (c_de (c_opt xc_tx) f v5) as [a5|]; [|discriminate]. lookup_step. destruct (c_de (c_opt xc_txout) f v6) as [a6|]; [|discriminate]. lookup_step. destruct (c_de (c_map sk_pubkey xc_pubkey xc_esig) f v7) as [a7|]; [|discriminate]. lookup_step. destruct (c_de (c_opt c_sighash_type) f v8) as [a8|]; [|discriminate]. lookup_step. destruct (c_de (c_opt xc_script) f v9) as [a9|]; [|discriminate]. lookup_step. destruct (c_de (c_opt xc_script) f v10) as [a10|]; [|discriminate]. lookup_step. destruct (c_de (c_as_seq bkey xc_secp c_keysource) f v11) as [a11|]; [|discriminate]. lookup_step. destruct (c_de (c_opt xc_script) f v12) as [a12|]; [|discriminate]. lookup_step. destruct (c_de (c_opt xc_witness) f v13) as [a13|]; [|discriminate]. lookup_step. destruct (c_de (c_byte_values bkey xc_ripemd160) f v14) as [a14|]; [|discriminate]. lookup_step. destruct (c_de (c_byte_values bkey xc_sha256) f v15) as [a15|]; [|discriminate]. lookup_step. destruct (c_de (c_byte_values bkey xc_hash160) f v16) as [a16|]; [|discriminate]. lookup_step. destruct (c_de (c_byte_values bkey xc_sha256d) f v17) as [a17|]; [|discriminate]. lookup_step. destruct (c_de (c_opt xc_tsig) f v18) as [a18|]; [|discriminate]. lookup_step. destruct (c_de (c_as_seq sk_xleaf (c_pair xc_xonly xc_leaf_hash) xc_tsig) f v19) as [a19|]; [|discriminate]. lookup_step. destruct (c_de (c_as_seq sk_controlblock xc_control_block (c_pair xc_script xc_leaf_version)) f v20) as [a20|]; [|discriminate]. lookup_step. destruct (c_de (c_as_seq bkey xc_xonly (c_pair (c_vec xc_leaf_hash) c_keysource)) f v21) as [a21|]; [|discriminate]. lookup_step. destruct (c_de (c_opt xc_xonly) f v22) as [a22|]; [|discriminate]. lookup_step. destruct (c_de (c_opt xc_node_hash) f v23) as [a23|]; [|discriminate]. lookup_step. destruct (c_de (c_seq_byte_values sk_propkey c_propkey) f v26) as [a26|]; [|discriminate]. lookup_step. destruct (c_de (c_seq_byte_values sk_key c_key) f v27) as [a27|]; [|discriminate]. intros E; injection E as <-; auto 40.
Qed.
Definition build_input (f : fmt) (l : list (bytes * sval)) : option input :=
  a0 <~ req_field xc_txid f (str "previous_txid") l ;;
  a1 <~ req_field c_u32 f (str "spent_output_index") l ;;
  a2 <~ opt_field xc_sequence f (str "sequence") l ;;
  a3 <~ opt_field xc_time f (str "min_time") l ;;
  a4 <~ opt_field xc_height f (str "min_height") l ;;
  a5 <~ opt_field xc_tx f (str "non_witness_utxo") l ;;
  a6 <~ opt_field xc_txout f (str "witness_utxo") l ;;
  a7 <~ req_field (c_map sk_pubkey xc_pubkey xc_esig) f (str "partial_sigs") l ;;
  a8 <~ opt_field c_sighash_type f (str "sighash_type") l ;;
  a9 <~ opt_field xc_script f (str "redeem_script") l ;;
  a10 <~ opt_field xc_script f (str "witness_script") l ;;
  a11 <~ req_field (c_as_seq bkey xc_secp c_keysource) f (str "bip32_derivations") l ;;
  a12 <~ opt_field xc_script f (str "final_script_sig") l ;;
  a13 <~ opt_field xc_witness f (str "final_script_witness") l ;;
  a14 <~ req_field (c_byte_values bkey xc_ripemd160) f (str "ripemd160_preimages") l ;;
  a15 <~ req_field (c_byte_values bkey xc_sha256) f (str "sha256_preimages") l ;;
  a16 <~ req_field (c_byte_values bkey xc_hash160) f (str "hash160_preimages") l ;;
  a17 <~ req_field (c_byte_values bkey xc_sha256d) f (str "hash256_preimages") l ;;
  a18 <~ opt_field xc_tsig f (str "tap_key_sig") l ;;
  a19 <~ req_field (c_as_seq sk_xleaf (c_pair xc_xonly xc_leaf_hash) xc_tsig) f (str "tap_script_sigs") l ;;
  a20 <~ req_field (c_as_seq sk_controlblock xc_control_block (c_pair xc_script xc_leaf_version)) f (str "tap_scripts") l ;;
  a21 <~ req_field (c_as_seq bkey xc_xonly (c_pair (c_vec xc_leaf_hash) c_keysource)) f (str "tap_key_origins") l ;;
  a22 <~ opt_field xc_xonly f (str "tap_internal_key") l ;;
  a23 <~ opt_field xc_node_hash f (str "tap_merkle_root") l ;;
  a24 <~ sp_req_field [] (c_as_seq bkey xc_cpk xc_cpk) f (str "sp_ecdh_shares") l ;;
  a25 <~ sp_req_field [] (c_as_seq bkey xc_cpk c_dleq) f (str "sp_dleq_proofs") l ;;
  a26 <~ req_field (c_seq_byte_values sk_propkey c_propkey) f (str "proprietaries") l ;;
  a27 <~ req_field (c_seq_byte_values sk_key c_key) f (str "unknowns") l ;;
  Some (Input a0 a1 a2 a3 a4 a5 a6 a7 a8 a9 a10 a11 a12 a13 a14 a15 a16 a17 a18 a19 a20 a21 a22 a23 a24 a25 a26 a27).
Lemma input_lookup : lookup input_fields input_members de_input.
Proof.
  exists build_input. split; [reflexivity|split; [|split; [unfold input_fields, input_members, sp_fields; destruct feat_sp; reflexivity|]]].
  - unfold input_members. destruct feat_sp eqn:FS; cbn [app].
    + intros f l l' H. unfold build_input, sp_req_field, sp_opt_field. rewrite FS. rewrite (req_agree _ _ f (str "previous_txid") l l' H eq_refl). rewrite (req_agree _ _ f (str "spent_output_index") l l' H eq_refl). rewrite (opt_agree _ _ f (str "sequence") l l' H). rewrite (opt_agree _ _ f (str "min_time") l l' H). rewrite (opt_agree _ _ f (str "min_height") l l' H). rewrite (opt_agree _ _ f (str "non_witness_utxo") l l' H). rewrite (opt_agree _ _ f (str "witness_utxo") l l' H). rewrite (req_agree _ _ f (str "partial_sigs") l l' H eq_refl). rewrite (opt_agree _ _ f (str "sighash_type") l l' H). rewrite (opt_agree _ _ f (str "redeem_script") l l' H). rewrite (opt_agree _ _ f (str "witness_script") l l' H). rewrite (req_agree _ _ f (str "bip32_derivations") l l' H eq_refl). rewrite (opt_agree _ _ f (str "final_script_sig") l l' H). rewrite (opt_agree _ _ f (str "final_script_witness") l l' H). rewrite (req_agree _ _ f (str "ripemd160_preimages") l l' H eq_refl). rewrite (req_agree _ _ f (str "sha256_preimages") l l' H eq_refl). rewrite (req_agree _ _ f (str "hash160_preimages") l l' H eq_refl). rewrite (req_agree _ _ f (str "hash256_preimages") l l' H eq_refl). rewrite (opt_agree _ _ f (str "tap_key_sig") l l' H). rewrite (req_agree _ _ f (str "tap_script_sigs") l l' H eq_refl). rewrite (req_agree _ _ f (str "tap_scripts") l l' H eq_refl). rewrite (req_agree _ _ f (str "tap_key_origins") l l' H eq_refl). rewrite (opt_agree _ _ f (str "tap_internal_key") l l' H). rewrite (opt_agree _ _ f (str "tap_merkle_root") l l' H). rewrite (req_agree _ _ f (str "sp_ecdh_shares") l l' H eq_refl). rewrite (req_agree _ _ f (str "sp_dleq_proofs") l l' H eq_refl). rewrite (req_agree _ _ f (str "proprietaries") l l' H eq_refl). rewrite (req_agree _ _ f (str "unknowns") l l' H eq_refl). reflexivity.
    + intros f l l' H. unfold build_input, sp_req_field, sp_opt_field. rewrite FS. rewrite (req_agree _ _ f (str "previous_txid") l l' H eq_refl). rewrite (req_agree _ _ f (str "spent_output_index") l l' H eq_refl). rewrite (opt_agree _ _ f (str "sequence") l l' H). rewrite (opt_agree _ _ f (str "min_time") l l' H). rewrite (opt_agree _ _ f (str "min_height") l l' H). rewrite (opt_agree _ _ f (str "non_witness_utxo") l l' H). rewrite (opt_agree _ _ f (str "witness_utxo") l l' H). rewrite (req_agree _ _ f (str "partial_sigs") l l' H eq_refl). rewrite (opt_agree _ _ f (str "sighash_type") l l' H). rewrite (opt_agree _ _ f (str "redeem_script") l l' H). rewrite (opt_agree _ _ f (str "witness_script") l l' H). rewrite (req_agree _ _ f (str "bip32_derivations") l l' H eq_refl). rewrite (opt_agree _ _ f (str "final_script_sig") l l' H). rewrite (opt_agree _ _ f (str "final_script_witness") l l' H). rewrite (req_agree _ _ f (str "ripemd160_preimages") l l' H eq_refl). rewrite (req_agree _ _ f (str "sha256_preimages") l l' H eq_refl). rewrite (req_agree _ _ f (str "hash160_preimages") l l' H eq_refl). rewrite (req_agree _ _ f (str "hash256_preimages") l l' H eq_refl). rewrite (opt_agree _ _ f (str "tap_key_sig") l l' H). rewrite (req_agree _ _ f (str "tap_script_sigs") l l' H eq_refl). rewrite (req_agree _ _ f (str "tap_scripts") l l' H eq_refl). rewrite (req_agree _ _ f (str "tap_key_origins") l l' H eq_refl). rewrite (opt_agree _ _ f (str "tap_internal_key") l l' H). rewrite (opt_agree _ _ f (str "tap_merkle_root") l l' H). rewrite (req_agree _ _ f (str "proprietaries") l l' H eq_refl). rewrite (req_agree _ _ f (str "unknowns") l l' H eq_refl). reflexivity.
  - unfold input_members. destruct feat_sp eqn:FS; cbn [app].
    + intros f l x E. unfold build_input, sp_req_field, sp_opt_field in E. rewrite FS in E. match type of E with match ?t with _ => _ end = _ => destruct t as [a0|] eqn:E0; [|discriminate] end. match type of E with match ?t with _ => _ end = _ => destruct t as [a1|] eqn:E1; [|discriminate] end. match type of E with match ?t with _ => _ end = _ => destruct t as [a2|] eqn:E2; [|discriminate] end. match type of E with match ?t with _ => _ end = _ => destruct t as [a3|] eqn:E3; [|discriminate] end. match type of E with match ?t with _ => _ end = _ => destruct t as [a4|] eqn:E4; [|discriminate] end. match type of E with match ?t with _ => _ end = _ => destruct t as [a5|] eqn:E5; [|discriminate] end. match type of E with match ?t with _ => _ end = _ => destruct t as [a6|] eqn:E6; [|discriminate] end. match type of E with match ?t with _ => _ end = _ => destruct t as [a7|] eqn:E7; [|discriminate] end. match type of E with match ?t with _ => _ end = _ => destruct t as [a8|] eqn:E8; [|discriminate] end. match type of E with match ?t with _ => _ end = _ => destruct t as [a9|] eqn:E9; [|discriminate] end. match type of E with match ?t with _ => _ end = _ => destruct t as [a10|] eqn:E10; [|discriminate] end. match type of E with match ?t with _ => _ end = _ => destruct t as [a11|] eqn:E11; [|discriminate] end. match type of E with match ?t with _ => _ end = _ => destruct t as [a12|] eqn:E12; [|discriminate] end. match type of E with match ?t with _ => _ end = _ => destruct t as [a13|] eqn:E13; [|discriminate] end. match type of E with match ?t with _ => _ end = _ => destruct t as [a14|] eqn:E14; [|discriminate] end. match type of E with match ?t with _ => _ end = _ => destruct t as [a15|] eqn:E15; [|discriminate] end. match type of E with match ?t with _ => _ end = _ => destruct t as [a16|] eqn:E16; [|discriminate] end. match type of E with match ?t with _ => _ end = _ => destruct t as [a17|] eqn:E17; [|discriminate] end. match type of E with match ?t with _ => _ end = _ => destruct t as [a18|] eqn:E18; [|discriminate] end. match type of E with match ?t with _ => _ end = _ => destruct t as [a19|] eqn:E19; [|discriminate] end. match type of E with match ?t with _ => _ end = _ => destruct t as [a20|] eqn:E20; [|discriminate] end. match type of E with match ?t with _ => _ end = _ => destruct t as [a21|] eqn:E21; [|discriminate] end. match type of E with match ?t with _ => _ end = _ => destruct t as [a22|] eqn:E22; [|discriminate] end. match type of E with match ?t with _ => _ end = _ => destruct t as [a23|] eqn:E23; [|discriminate] end. match type of E with match ?t with _ => _ end = _ => destruct t as [a24|] eqn:E24; [|discriminate] end. match type of E with match ?t with _ => _ end = _ => destruct t as [a25|] eqn:E25; [|discriminate] end. match type of E with match ?t with _ => _ end = _ => destruct t as [a26|] eqn:E26; [|discriminate] end. match type of E with match ?t with _ => _ end = _ => destruct t as [a27|] eqn:E27; [|discriminate] end. intros m Hm. cbn [In] in Hm. repeat (destruct Hm as [Hm|Hm]; [|]); try (injection Hm as <-); try contradiction; first [discriminate | eapply req_present; eassumption].
    + intros f l x E. unfold build_input, sp_req_field, sp_opt_field in E. rewrite FS in E. match type of E with match ?t with _ => _ end = _ => destruct t as [a0|] eqn:E0; [|discriminate] end. match type of E with match ?t with _ => _ end = _ => destruct t as [a1|] eqn:E1; [|discriminate] end. match type of E with match ?t with _ => _ end = _ => destruct t as [a2|] eqn:E2; [|discriminate] end. match type of E with match ?t with _ => _ end = _ => destruct t as [a3|] eqn:E3; [|discriminate] end. match type of E with match ?t with _ => _ end = _ => destruct t as [a4|] eqn:E4; [|discriminate] end. match type of E with match ?t with _ => _ end = _ => destruct t as [a5|] eqn:E5; [|discriminate] end. match type of E with match ?t with _ => _ end = _ => destruct t as [a6|] eqn:E6; [|discriminate] end. match type of E with match ?t with _ => _ end = _ => destruct t as [a7|] eqn:E7; [|discriminate] end. match type of E with match ?t with _ => _ end = _ => destruct t as [a8|] eqn:E8; [|discriminate] end. match type of E with match ?t with _ => _ end = _ => destruct t as [a9|] eqn:E9; [|discriminate] end. match type of E with match ?t with _ => _ end = _ => destruct t as [a10|] eqn:E10; [|discriminate] end. match type of E with match ?t with _ => _ end = _ => destruct t as [a11|] eqn:E11; [|discriminate] end. match type of E with match ?t with _ => _ end = _ => destruct t as [a12|] eqn:E12; [|discriminate] end. match type of E with match ?t with _ => _ end = _ => destruct t as [a13|] eqn:E13; [|discriminate] end. match type of E with match ?t with _ => _ end = _ => destruct t as [a14|] eqn:E14; [|discriminate] end. match type of E with match ?t with _ => _ end = _ => destruct t as [a15|] eqn:E15; [|discriminate] end. match type of E with match ?t with _ => _ end = _ => destruct t as [a16|] eqn:E16; [|discriminate] end. match type of E with match ?t with _ => _ end = _ => destruct t as [a17|] eqn:E17; [|discriminate] end. match type of E with match ?t with _ => _ end = _ => destruct t as [a18|] eqn:E18; [|discriminate] end. match type of E with match ?t with _ => _ end = _ => destruct t as [a19|] eqn:E19; [|discriminate] end. match type of E with match ?t with _ => _ end = _ => destruct t as [a20|] eqn:E20; [|discriminate] end. match type of E with match ?t with _ => _ end = _ => destruct t as [a21|] eqn:E21; [|discriminate] end. match type of E with match ?t with _ => _ end = _ => destruct t as [a22|] eqn:E22; [|discriminate] end. match type of E with match ?t with _ => _ end = _ => destruct t as [a23|] eqn:E23; [|discriminate] end. match type of E with match ?t with _ => _ end = _ => destruct t as [a26|] eqn:E26; [|discriminate] end. match type of E with match ?t with _ => _ end = _ => destruct t as [a27|] eqn:E27; [|discriminate] end. intros m Hm. cbn [In] in Hm. repeat (destruct Hm as [Hm|Hm]; [|]); try (injection Hm as <-); try contradiction; first [discriminate | eapply req_present; eassumption].
Qed.
Lemma input_json f : json f c_input.
Proof.
  intros E x. apply struct_json. unfold sp_fields.
  destruct feat_sp; cbn [app].
  - constructor; [exact ((fjson _ _ sl_txid f) E _)|]. constructor; [exact ((num_json f U32) E _)|]. constructor; [exact ((opt_json f _ (fjson _ _ sl_sequence f)) E _)|]. constructor; [exact ((opt_json f _ (fjson _ _ sl_time f)) E _)|]. constructor; [exact ((opt_json f _ (fjson _ _ sl_height f)) E _)|]. constructor; [exact ((opt_json f _ (fjson _ _ sl_tx f)) E _)|]. constructor; [exact ((opt_json f _ (fjson _ _ sl_txout f)) E _)|]. constructor; [exact ((map_json f sk_pubkey _ _ sl_pubkey_text (fjson _ _ sl_esig f)) E _)|]. constructor; [exact ((opt_json f _ (sighash_json f)) E _)|]. constructor; [exact ((opt_json f _ (fjson _ _ sl_script f)) E _)|]. constructor; [exact ((opt_json f _ (fjson _ _ sl_script f)) E _)|]. constructor; [exact ((as_seq_json f bkey _ _ (fjson _ _ sl_secp f) (keysource_json f)) E _)|]. constructor; [exact ((opt_json f _ (fjson _ _ sl_script f)) E _)|]. constructor; [exact ((opt_json f _ (fjson _ _ sl_witness f)) E _)|]. constructor; [exact ((byte_values_json f bkey _ sl_ripemd160_text) E _)|]. constructor; [exact ((byte_values_json f bkey _ sl_sha256_text) E _)|]. constructor; [exact ((byte_values_json f bkey _ sl_hash160_text) E _)|]. constructor; [exact ((byte_values_json f bkey _ sl_sha256d_text) E _)|]. constructor; [exact ((opt_json f _ (fjson _ _ sl_tsig f)) E _)|]. constructor; [exact ((as_seq_json f sk_xleaf _ _ (xleaf_json f) (fjson _ _ sl_tsig f)) E _)|]. constructor; [exact ((as_seq_json f sk_controlblock _ _ (fjson _ _ sl_control_block f) (leafscript_json f)) E _)|]. constructor; [exact ((as_seq_json f bkey _ _ (fjson _ _ sl_xonly f) (origin_json f)) E _)|]. constructor; [exact ((opt_json f _ (fjson _ _ sl_xonly f)) E _)|]. constructor; [exact ((opt_json f _ (fjson _ _ sl_node_hash f)) E _)|]. constructor; [exact ((as_seq_json f bkey _ _ (fjson _ _ sl_cpk f) (fjson _ _ sl_cpk f)) E _)|]. constructor; [exact ((as_seq_json f bkey _ _ (fjson _ _ sl_cpk f) (dleq_json f)) E _)|]. constructor; [exact ((seq_bytes_json f sk_propkey _ (propkey_json f)) E _)|]. constructor; [exact ((seq_bytes_json f sk_key _ (key_json f)) E _)|]. constructor.
  - constructor; [exact ((fjson _ _ sl_txid f) E _)|]. constructor; [exact ((num_json f U32) E _)|]. constructor; [exact ((opt_json f _ (fjson _ _ sl_sequence f)) E _)|]. constructor; [exact ((opt_json f _ (fjson _ _ sl_time f)) E _)|]. constructor; [exact ((opt_json f _ (fjson _ _ sl_height f)) E _)|]. constructor; [exact ((opt_json f _ (fjson _ _ sl_tx f)) E _)|]. constructor; [exact ((opt_json f _ (fjson _ _ sl_txout f)) E _)|]. constructor; [exact ((map_json f sk_pubkey _ _ sl_pubkey_text (fjson _ _ sl_esig f)) E _)|]. constructor; [exact ((opt_json f _ (sighash_json f)) E _)|]. constructor; [exact ((opt_json f _ (fjson _ _ sl_script f)) E _)|]. constructor; [exact ((opt_json f _ (fjson _ _ sl_script f)) E _)|]. constructor; [exact ((as_seq_json f bkey _ _ (fjson _ _ sl_secp f) (keysource_json f)) E _)|]. constructor; [exact ((opt_json f _ (fjson _ _ sl_script f)) E _)|]. constructor; [exact ((opt_json f _ (fjson _ _ sl_witness f)) E _)|]. constructor; [exact ((byte_values_json f bkey _ sl_ripemd160_text) E _)|]. constructor; [exact ((byte_values_json f bkey _ sl_sha256_text) E _)|]. constructor; [exact ((byte_values_json f bkey _ sl_hash160_text) E _)|]. constructor; [exact ((byte_values_json f bkey _ sl_sha256d_text) E _)|]. constructor; [exact ((opt_json f _ (fjson _ _ sl_tsig f)) E _)|]. constructor; [exact ((as_seq_json f sk_xleaf _ _ (xleaf_json f) (fjson _ _ sl_tsig f)) E _)|]. constructor; [exact ((as_seq_json f sk_controlblock _ _ (fjson _ _ sl_control_block f) (leafscript_json f)) E _)|]. constructor; [exact ((as_seq_json f bkey _ _ (fjson _ _ sl_xonly f) (origin_json f)) E _)|]. constructor; [exact ((opt_json f _ (fjson _ _ sl_xonly f)) E _)|]. constructor; [exact ((opt_json f _ (fjson _ _ sl_node_hash f)) E _)|]. constructor; [exact ((seq_bytes_json f sk_propkey _ (propkey_json f)) E _)|]. constructor; [exact ((seq_bytes_json f sk_key _ (key_json f)) E _)|]. constructor.
Qed.
Lemma input_sound f : sound f typed_input c_input.
Proof.
  intros v x E. cbn [c_de c_input] in E. unfold de_input in E.
  destruct (struct_fields input_fields v) as [l|]; [|discriminate].
  match type of E with match ?t with _ => _ end = _ => destruct t as [a0|] eqn:E0; [|discriminate] end.
  match type of E with match ?t with _ => _ end = _ => destruct t as [a1|] eqn:E1; [|discriminate] end.
  match type of E with match ?t with _ => _ end = _ => destruct t as [a2|] eqn:E2; [|discriminate] end.
  match type of E with match ?t with _ => _ end = _ => destruct t as [a3|] eqn:E3; [|discriminate] end.
  match type of E with match ?t with _ => _ end = _ => destruct t as [a4|] eqn:E4; [|discriminate] end.
  match type of E with match ?t with _ => _ end = _ => destruct t as [a5|] eqn:E5; [|discriminate] end.
  match type of E with match ?t with _ => _ end = _ => destruct t as [a6|] eqn:E6; [|discriminate] end.
  match type of E with match ?t with _ => _ end = _ => destruct t as [a7|] eqn:E7; [|discriminate] end.
  match type of E with match ?t with _ => _ end = _ => destruct t as [a8|] eqn:E8; [|discriminate] end.
  match type of E with match ?t with _ => _ end = _ => destruct t as [a9|] eqn:E9; [|discriminate] end.
  match type of E with match ?t with _ => _ end = _ => destruct t as [a10|] eqn:E10; [|discriminate] end.
  match type of E with match ?t with _ => _ end = _ => destruct t as [a11|] eqn:E11; [|discriminate] end.
  match type of E with match ?t with _ => _ end = _ => destruct t as [a12|] eqn:E12; [|discriminate] end.
  match type of E with match ?t with _ => _ end = _ => destruct t as [a13|] eqn:E13; [|discriminate] end.
  match type of E with match ?t with _ => _ end = _ => destruct t as [a14|] eqn:E14; [|discriminate] end.
  match type of E with match ?t with _ => _ end = _ => destruct t as [a15|] eqn:E15; [|discriminate] end.
  match type of E with match ?t with _ => _ end = _ => destruct t as [a16|] eqn:E16; [|discriminate] end.
  match type of E with match ?t with _ => _ end = _ => destruct t as [a17|] eqn:E17; [|discriminate] end.
  match type of E with match ?t with _ => _ end = _ => destruct t as [a18|] eqn:E18; [|discriminate] end.
  match type of E with match ?t with _ => _ end = _ => destruct t as [a19|] eqn:E19; [|discriminate] end.
  match type of E with match ?t with _ => _ end = _ => destruct t as [a20|] eqn:E20; [|discriminate] end.
  match type of E with match ?t with _ => _ end = _ => destruct t as [a21|] eqn:E21; [|discriminate] end.
  match type of E with match ?t with _ => _ end = _ => destruct t as [a22|] eqn:E22; [|discriminate] end.
  match type of E with match ?t with _ => _ end = _ => destruct t as [a23|] eqn:E23; [|discriminate] end.
  match type of E with match ?t with _ => _ end = _ => destruct t as [a24|] eqn:E24; [|discriminate] end.
  match type of E with match ?t with _ => _ end = _ => destruct t as [a25|] eqn:E25; [|discriminate] end.
  match type of E with match ?t with _ => _ end = _ => destruct t as [a26|] eqn:E26; [|discriminate] end.
  match type of E with match ?t with _ => _ end = _ => destruct t as [a27|] eqn:E27; [|discriminate] end.
  injection E as <-. constructor; cbn [in_previous_txid in_spent_output_index in_sequence in_min_time in_min_height in_non_witness_utxo in_witness_utxo in_partial_sigs in_sighash_type in_redeem_script in_witness_script in_bip32_derivations in_final_script_sig in_final_script_witness in_ripemd160_preimages in_sha256_preimages in_hash160_preimages in_hash256_preimages in_tap_key_sig in_tap_script_sigs in_tap_scripts in_tap_key_origins in_tap_internal_key in_tap_merkle_root in_sp_ecdh_shares in_sp_dleq_proofs in_proprietaries in_unknowns].
  - exact (req_field_sound f _ _ _ _ _ (fsound _ _ sl_txid f) E0).
  - exact (req_field_sound f _ _ _ _ _ (num_sound f U32) E1).
  - exact (opt_field_sound f _ _ _ _ _ (fsound _ _ sl_sequence f) E2).
  - exact (opt_field_sound f _ _ _ _ _ (fsound _ _ sl_time f) E3).
  - exact (opt_field_sound f _ _ _ _ _ (fsound _ _ sl_height f) E4).
  - exact (opt_field_sound f _ _ _ _ _ (fsound _ _ sl_tx f) E5).
  - exact (opt_field_sound f _ _ _ _ _ (fsound _ _ sl_txout f) E6).
  - exact (req_field_sound f _ _ _ _ _ (map_sound f sk_pubkey _ _ _ _ sk_pubkey_inj (fsound _ _ sl_pubkey f) (fsound _ _ sl_esig f)) E7).
  - exact (opt_field_sound f _ _ _ _ _ (sighash_sound f) E8).
  - exact (opt_field_sound f _ _ _ _ _ (fsound _ _ sl_script f) E9).
  - exact (opt_field_sound f _ _ _ _ _ (fsound _ _ sl_script f) E10).
  - exact (req_field_sound f _ _ _ _ _ (as_seq_sound f bkey _ _ _ _ bkey_inj (fsound _ _ sl_secp f) (keysource_sound f)) E11).
  - exact (opt_field_sound f _ _ _ _ _ (fsound _ _ sl_script f) E12).
  - exact (opt_field_sound f _ _ _ _ _ (fsound _ _ sl_witness f) E13).
  - exact (req_field_sound f _ _ _ _ _ (byte_values_sound f bkey _ _ bkey_inj (fsound _ _ sl_ripemd160 f)) E14).
  - exact (req_field_sound f _ _ _ _ _ (byte_values_sound f bkey _ _ bkey_inj (fsound _ _ sl_sha256 f)) E15).
  - exact (req_field_sound f _ _ _ _ _ (byte_values_sound f bkey _ _ bkey_inj (fsound _ _ sl_hash160 f)) E16).
  - exact (req_field_sound f _ _ _ _ _ (byte_values_sound f bkey _ _ bkey_inj (fsound _ _ sl_sha256d f)) E17).
  - exact (opt_field_sound f _ _ _ _ _ (fsound _ _ sl_tsig f) E18).
  - exact (req_field_sound f _ _ _ _ _ (as_seq_sound f sk_xleaf _ _ _ _ sk_xleaf_inj (xleaf_sound f) (fsound _ _ sl_tsig f)) E19).
  - exact (req_field_sound f _ _ _ _ _ (as_seq_sound f sk_controlblock _ _ _ _ sk_controlblock_inj (fsound _ _ sl_control_block f) (leafscript_sound f)) E20).
  - exact (req_field_sound f _ _ _ _ _ (as_seq_sound f bkey _ _ _ _ bkey_inj (fsound _ _ sl_xonly f) (origin_sound f)) E21).
  - exact (opt_field_sound f _ _ _ _ _ (fsound _ _ sl_xonly f) E22).
  - exact (opt_field_sound f _ _ _ _ _ (fsound _ _ sl_node_hash f) E23).
  - unfold sp_field. unfold sp_req_field in E24. destruct feat_sp; [exact (req_field_sound f _ _ _ _ _ (as_seq_sound f bkey _ _ _ _ bkey_inj (fsound _ _ sl_cpk f) (fsound _ _ sl_cpk f)) E24)|now injection E24].
  - unfold sp_field. unfold sp_req_field in E25. destruct feat_sp; [exact (req_field_sound f _ _ _ _ _ (as_seq_sound f bkey _ _ _ _ bkey_inj (fsound _ _ sl_cpk f) (dleq_sound f)) E25)|now injection E25].
  - exact (req_field_sound f _ _ _ _ _ (seq_bytes_sound f sk_propkey _ _ sk_propkey_inj (any_sound f _)) E26).
  - exact (req_field_sound f _ _ _ _ _ (seq_bytes_sound f sk_key _ _ sk_key_inj (any_sound f _)) E27).
Qed.
Lemma input_back f x : typed_input x -> (f_hr f = true -> f_lends f = true \/ no_preimages x) -> de_input f (ser_input f x) = Some x.
Proof.
  intros T L.
  assert (EX : x = Input (in_previous_txid x) (in_spent_output_index x) (in_sequence x) (in_min_time x) (in_min_height x) (in_non_witness_utxo x) (in_witness_utxo x) (in_partial_sigs x) (in_sighash_type x) (in_redeem_script x) (in_witness_script x) (in_bip32_derivations x) (in_final_script_sig x) (in_final_script_witness x) (in_ripemd160_preimages x) (in_sha256_preimages x) (in_hash160_preimages x) (in_hash256_preimages x) (in_tap_key_sig x) (in_tap_script_sigs x) (in_tap_scripts x) (in_tap_key_origins x) (in_tap_internal_key x) (in_tap_merkle_root x) (in_sp_ecdh_shares x) (in_sp_dleq_proofs x) (in_proprietaries x) (in_unknowns x)) by (destruct x; reflexivity).
  rewrite EX at 2. unfold ser_input. apply input_vals.
  - exact ((fback _ _ sl_txid f) _ (tyi_previous_txid _ T)).
  - exact ((num_back f U32) _ (tyi_spent_output_index _ T)).
  - exact (opt_back f _ _ (fback _ _ sl_sequence f) (fsome _ _ sl_sequence f) _ (tyi_sequence _ T)).
  - exact (opt_back f _ _ (fback _ _ sl_time f) (fsome _ _ sl_time f) _ (tyi_min_time _ T)).
  - exact (opt_back f _ _ (fback _ _ sl_height f) (fsome _ _ sl_height f) _ (tyi_min_height _ T)).
  - exact (opt_back f _ _ (fback _ _ sl_tx f) (fsome _ _ sl_tx f) _ (tyi_non_witness_utxo _ T)).
  - exact (opt_back f _ _ (fback _ _ sl_txout f) (fsome _ _ sl_txout f) _ (tyi_witness_utxo _ T)).
  - exact ((map_back f sk_pubkey _ _ _ _ sk_pubkey_inj (fback _ _ sl_pubkey f) (fback _ _ sl_esig f)) _ (tyi_partial_sigs _ T)).
  - exact (opt_back f _ _ (sighash_back f) (sighash_some f) _ (tyi_sighash_type _ T)).
  - exact (opt_back f _ _ (fback _ _ sl_script f) (fsome _ _ sl_script f) _ (tyi_redeem_script _ T)).
  - exact (opt_back f _ _ (fback _ _ sl_script f) (fsome _ _ sl_script f) _ (tyi_witness_script _ T)).
  - exact ((as_seq_back f bkey _ _ _ _ bkey_inj (fback _ _ sl_secp f) (keysource_back f)) _ (tyi_bip32_derivations _ T)).
  - exact (opt_back f _ _ (fback _ _ sl_script f) (fsome _ _ sl_script f) _ (tyi_final_script_sig _ T)).
  - exact (opt_back f _ _ (fback _ _ sl_witness f) (fsome _ _ sl_witness f) _ (tyi_final_script_witness _ T)).
  - refine ((byte_values_back f bkey _ _ _ bkey_inj (fback _ _ sl_ripemd160 f)) (tyi_ripemd160_preimages _ T) _). intros E. destruct (L E) as [?|(P0 & P1 & P2 & P3)]; [now left|right; exact P0].
  - refine ((byte_values_back f bkey _ _ _ bkey_inj (fback _ _ sl_sha256 f)) (tyi_sha256_preimages _ T) _). intros E. destruct (L E) as [?|(P0 & P1 & P2 & P3)]; [now left|right; exact P1].
  - refine ((byte_values_back f bkey _ _ _ bkey_inj (fback _ _ sl_hash160 f)) (tyi_hash160_preimages _ T) _). intros E. destruct (L E) as [?|(P0 & P1 & P2 & P3)]; [now left|right; exact P2].
  - refine ((byte_values_back f bkey _ _ _ bkey_inj (fback _ _ sl_sha256d f)) (tyi_hash256_preimages _ T) _). intros E. destruct (L E) as [?|(P0 & P1 & P2 & P3)]; [now left|right; exact P3].
  - exact (opt_back f _ _ (fback _ _ sl_tsig f) (fsome _ _ sl_tsig f) _ (tyi_tap_key_sig _ T)).
  - exact ((as_seq_back f sk_xleaf _ _ _ _ sk_xleaf_inj (xleaf_back f) (fback _ _ sl_tsig f)) _ (tyi_tap_script_sigs _ T)).
  - exact ((as_seq_back f sk_controlblock _ _ _ _ sk_controlblock_inj (fback _ _ sl_control_block f) (leafscript_back f)) _ (tyi_tap_scripts _ T)).
  - exact ((as_seq_back f bkey _ _ _ _ bkey_inj (fback _ _ sl_xonly f) (origin_back f)) _ (tyi_tap_key_origins _ T)).
  - exact (opt_back f _ _ (fback _ _ sl_xonly f) (fsome _ _ sl_xonly f) _ (tyi_tap_internal_key _ T)).
  - exact (opt_back f _ _ (fback _ _ sl_node_hash f) (fsome _ _ sl_node_hash f) _ (tyi_tap_merkle_root _ T)).
  - pose proof (tyi_sp_ecdh_shares _ T) as Q; unfold sp_field in Q; destruct feat_sp; [exact ((as_seq_back f bkey _ _ _ _ bkey_inj (fback _ _ sl_cpk f) (fback _ _ sl_cpk f)) _ Q)|exact Q].
  - pose proof (tyi_sp_dleq_proofs _ T) as Q; unfold sp_field in Q; destruct feat_sp; [exact ((as_seq_back f bkey _ _ _ _ bkey_inj (fback _ _ sl_cpk f) (dleq_back f)) _ Q)|exact Q].
  - exact ((seq_bytes_back f sk_propkey _ _ sk_propkey_inj (propkey_back f)) _ (tyi_proprietaries _ T)).
  - exact ((seq_bytes_back f sk_key _ _ sk_key_inj (key_back f)) _ (tyi_unknowns _ T)).
Qed.
Lemma output_vals f v0 v1 v2 v3 v4 v5 v6 v7 v8 v9 v10 v11 a0 a1 a2 a3 a4 a5 a6 a7 a8 a9 a10 a11 :
  c_de xc_amount f v0 = Some a0 ->
  c_de xc_script f v1 = Some a1 ->
  c_de (c_opt xc_script) f v2 = Some a2 ->
  c_de (c_opt xc_script) f v3 = Some a3 ->
  c_de (c_as_seq bkey xc_secp c_keysource) f v4 = Some a4 ->
  c_de (c_opt xc_xonly) f v5 = Some a5 ->
  c_de (c_opt xc_tap_tree) f v6 = Some a6 ->
  c_de (c_as_seq bkey xc_xonly (c_pair (c_vec xc_leaf_hash) c_keysource)) f v7 = Some a7 ->
  (if feat_sp then c_de (c_opt c_bytes) f v8 = Some a8 else a8 = None) ->
  (if feat_sp then c_de (c_opt c_u32) f v9 = Some a9 else a9 = None) ->
  c_de (c_seq_byte_values sk_propkey c_propkey) f v10 = Some a10 ->
  c_de (c_seq_byte_values sk_key c_key) f v11 = Some a11 ->
  de_output f (ser_struct ([(str "amount", v0); (str "script_pubkey", v1); (str "redeem_script", v2); (str "witness_script", v3); (str "bip32_derivations", v4); (str "tap_internal_key", v5); (str "tap_tree", v6); (str "tap_key_origins", v7)] ++ sp_fields [(str "sp_v0_info", v8)] ++ sp_fields [(str "sp_v0_label", v9)] ++ [(str "proprietaries", v10); (str "unknowns", v11)])) = Some (Output a0 a1 a2 a3 a4 a5 a6 a7 a8 a9 a10 a11).
Proof.
  intros H0 H1 H2 H3 H4 H5 H6 H7 H8 H9 H10 H11.
  unfold de_output, output_fields, sp_req_field, sp_opt_field, sp_fields, req_field, opt_field in *.
  destruct feat_sp.
  - field_step. lookup_step. rewrite H0. lookup_step. rewrite H1. lookup_step. rewrite H2. lookup_step. rewrite H3. lookup_step. rewrite H4. lookup_step. rewrite H5. lookup_step. rewrite H6. lookup_step. rewrite H7. lookup_step. rewrite H8. lookup_step. rewrite H9. lookup_step. rewrite H10. lookup_step. rewrite H11. reflexivity.
  - field_step. lookup_step. rewrite H0. lookup_step. rewrite H1. lookup_step. rewrite H2. lookup_step. rewrite H3. lookup_step. rewrite H4. lookup_step. rewrite H5. lookup_step. rewrite H6. lookup_step. rewrite H7. lookup_step. rewrite H10. lookup_step. rewrite H11. subst. reflexivity.
Qed.
Lemma output_vals_inv f v0 v1 v2 v3 v4 v5 v6 v7 v8 v9 v10 v11 x :
  de_output f (ser_struct ([(str "amount", v0); (str "script_pubkey", v1); (str "redeem_script", v2); (str "witness_script", v3); (str "bip32_derivations", v4); (str "tap_internal_key", v5); (str "tap_tree", v6); (str "tap_key_origins", v7)] ++ sp_fields [(str "sp_v0_info", v8)] ++ sp_fields [(str "sp_v0_label", v9)] ++ [(str "proprietaries", v10); (str "unknowns", v11)])) = Some x ->
  c_de xc_amount f v0 = Some (out_amount x) /\
  c_de xc_script f v1 = Some (out_script_pubkey x) /\
  c_de (c_opt xc_script) f v2 = Some (out_redeem_script x) /\
  c_de (c_opt xc_script) f v3 = Some (out_witness_script x) /\
  c_de (c_as_seq bkey xc_secp c_keysource) f v4 = Some (out_bip32_derivations x) /\
  c_de (c_opt xc_xonly) f v5 = Some (out_tap_internal_key x) /\
  c_de (c_opt xc_tap_tree) f v6 = Some (out_tap_tree x) /\
  c_de (c_as_seq bkey xc_xonly (c_pair (c_vec xc_leaf_hash) c_keysource)) f v7 = Some (out_tap_key_origins x) /\
  (if feat_sp then c_de (c_opt c_bytes) f v8 = Some (out_sp_v0_info x) else out_sp_v0_info x = None) /\
  (if feat_sp then c_de (c_opt c_u32) f v9 = Some (out_sp_v0_label x) else out_sp_v0_label x = None) /\
  c_de (c_seq_byte_values sk_propkey c_propkey) f v10 = Some (out_proprietaries x) /\
  c_de (c_seq_byte_values sk_key c_key) f v11 = Some (out_unknowns x).
Proof.
  unfold de_output, output_fields, sp_req_field, sp_opt_field, sp_fields, req_field, opt_field.
  destruct feat_sp.
  - field_step. lookup_step. destruct (c_de xc_amount f v0) as [a0|]; [|discriminate]. lookup_step. destruct (c_de xc_script f v1) as [a1|]; [|discriminate]. lookup_step. destruct (c_de (c_opt xc_script) f v2) as [a2|]; [|discriminate]. lookup_step. destruct (c_de (c_opt xc_script) f v3) as [a3|]; [|discriminate]. lookup_step. destruct (c_de (c_as_seq bkey xc_secp c_keysource) f v4) as [a4|]; [|discriminate]. lookup_step. destruct (c_de (c_opt xc_xonly) f v5) as [a5|]; [|discriminate]. lookup_step. destruct (c_de (c_opt xc_tap_tree) f v6) as [a6|]; [|discriminate]. lookup_step. destruct (c_de (c_as_seq bkey xc_xonly (c_pair (c_vec xc_leaf_hash) c_keysource)) f v7) as [a7|]; [|discriminate]. lookup_step. destruct (c_de (c_opt c_bytes) f v8) as [a8|]; [|discriminate]. lookup_step. destruct (c_de (c_opt c_u32) f v9) as [a9|]; [|discriminate]. lookup_step. destruct (c_de (c_seq_byte_values sk_propkey c_propkey) f v10) as [a10|]; [|discriminate]. lookup_step. destruct (c_de (c_seq_byte_values sk_key c_key) f v11) as [a11|]; [|discriminate]. intros E; injection E as <-; auto 40.
  - field_step. lookup_step. destruct (c_de xc_amount f v0) as [a0|]; [|discriminate]. lookup_step. destruct (c_de xc_script f v1) as [a1|]; [|discriminate]. lookup_step. destruct (c_de (c_opt xc_script) f v2) as [a2|]; [|discriminate]. lookup_step. destruct (c_de (c_opt xc_script) f v3) as [a3|]; [|discriminate]. lookup_step. destruct (c_de (c_as_seq bkey xc_secp c_keysource) f v4) as [a4|]; [|discriminate]. lookup_step. destruct (c_de (c_opt xc_xonly) f v5) as [a5|]; [|discriminate]. lookup_step. destruct (c_de (c_opt xc_tap_tree) f v6) as [a6|]; [|discriminate]. lookup_step. destruct (c_de (c_as_seq bkey xc_xonly (c_pair (c_vec xc_leaf_hash) c_keysource)) f v7) as [a7|]; [|discriminate]. lookup_step. destruct (c_de (c_seq_byte_values sk_propkey c_propkey) f v10) as [a10|]; [|discriminate]. lookup_step. destruct (c_de (c_seq_byte_values sk_key c_key) f v11) as [a11|]; [|discriminate]. intros E; injection E as <-; auto 40.
Qed.
Definition build_output (f : fmt) (l : list (bytes * sval)) : option output :=
  a0 <~ req_field xc_amount f (str "amount") l ;;
  a1 <~ req_field xc_script f (str "script_pubkey") l ;;
  a2 <~ opt_field xc_script f (str "redeem_script") l ;;
  a3 <~ opt_field xc_script f (str "witness_script") l ;;
  a4 <~ req_field (c_as_seq bkey xc_secp c_keysource) f (str "bip32_derivations") l ;;
  a5 <~ opt_field xc_xonly f (str "tap_internal_key") l ;;
  a6 <~ opt_field xc_tap_tree f (str "tap_tree") l ;;
  a7 <~ req_field (c_as_seq bkey xc_xonly (c_pair (c_vec xc_leaf_hash) c_keysource)) f (str "tap_key_origins") l ;;
  a8 <~ sp_opt_field c_bytes f (str "sp_v0_info") l ;;
  a9 <~ sp_opt_field c_u32 f (str "sp_v0_label") l ;;
  a10 <~ req_field (c_seq_byte_values sk_propkey c_propkey) f (str "proprietaries") l ;;
  a11 <~ req_field (c_seq_byte_values sk_key c_key) f (str "unknowns") l ;;
  Some (Output a0 a1 a2 a3 a4 a5 a6 a7 a8 a9 a10 a11).
Lemma output_lookup : lookup output_fields output_members de_output.
Proof.
  exists build_output. split; [reflexivity|split; [|split; [unfold output_fields, output_members, sp_fields; destruct feat_sp; reflexivity|]]].
  - unfold output_members. destruct feat_sp eqn:FS; cbn [app].
    + intros f l l' H. unfold build_output, sp_req_field, sp_opt_field. rewrite FS. rewrite (req_agree _ _ f (str "amount") l l' H eq_refl). rewrite (req_agree _ _ f (str "script_pubkey") l l' H eq_refl). rewrite (opt_agree _ _ f (str "redeem_script") l l' H). rewrite (opt_agree _ _ f (str "witness_script") l l' H). rewrite (req_agree _ _ f (str "bip32_derivations") l l' H eq_refl). rewrite (opt_agree _ _ f (str "tap_internal_key") l l' H). rewrite (opt_agree _ _ f (str "tap_tree") l l' H). rewrite (req_agree _ _ f (str "tap_key_origins") l l' H eq_refl). rewrite (opt_agree _ _ f (str "sp_v0_info") l l' H). rewrite (opt_agree _ _ f (str "sp_v0_label") l l' H). rewrite (req_agree _ _ f (str "proprietaries") l l' H eq_refl). rewrite (req_agree _ _ f (str "unknowns") l l' H eq_refl). reflexivity.
    + intros f l l' H. unfold build_output, sp_req_field, sp_opt_field. rewrite FS. rewrite (req_agree _ _ f (str "amount") l l' H eq_refl). rewrite (req_agree _ _ f (str "script_pubkey") l l' H eq_refl). rewrite (opt_agree _ _ f (str "redeem_script") l l' H). rewrite (opt_agree _ _ f (str "witness_script") l l' H). rewrite (req_agree _ _ f (str "bip32_derivations") l l' H eq_refl). rewrite (opt_agree _ _ f (str "tap_internal_key") l l' H). rewrite (opt_agree _ _ f (str "tap_tree") l l' H). rewrite (req_agree _ _ f (str "tap_key_origins") l l' H eq_refl). rewrite (req_agree _ _ f (str "proprietaries") l l' H eq_refl). rewrite (req_agree _ _ f (str "unknowns") l l' H eq_refl). reflexivity.
  - unfold output_members. destruct feat_sp eqn:FS; cbn [app].
    + intros f l x E. unfold build_output, sp_req_field, sp_opt_field in E. rewrite FS in E. match type of E with match ?t with _ => _ end = _ => destruct t as [a0|] eqn:E0; [|discriminate] end. match type of E with match ?t with _ => _ end = _ => destruct t as [a1|] eqn:E1; [|discriminate] end. match type of E with match ?t with _ => _ end = _ => destruct t as [a2|] eqn:E2; [|discriminate] end. match type of E with match ?t with _ => _ end = _ => destruct t as [a3|] eqn:E3; [|discriminate] end. match type of E with match ?t with _ => _ end = _ => destruct t as [a4|] eqn:E4; [|discriminate] end. match type of E with match ?t with _ => _ end = _ => destruct t as [a5|] eqn:E5; [|discriminate] end. match type of E with match ?t with _ => _ end = _ => destruct t as [a6|] eqn:E6; [|discriminate] end. match type of E with match ?t with _ => _ end = _ => destruct t as [a7|] eqn:E7; [|discriminate] end. match type of E with match ?t with _ => _ end = _ => destruct t as [a8|] eqn:E8; [|discriminate] end. match type of E with match ?t with _ => _ end = _ => destruct t as [a9|] eqn:E9; [|discriminate] end. match type of E with match ?t with _ => _ end = _ => destruct t as [a10|] eqn:E10; [|discriminate] end. match type of E with match ?t with _ => _ end = _ => destruct t as [a11|] eqn:E11; [|discriminate] end. intros m Hm. cbn [In] in Hm. repeat (destruct Hm as [Hm|Hm]; [|]); try (injection Hm as <-); try contradiction; first [discriminate | eapply req_present; eassumption].
    + intros f l x E. unfold build_output, sp_req_field, sp_opt_field in E. rewrite FS in E. match type of E with match ?t with _ => _ end = _ => destruct t as [a0|] eqn:E0; [|discriminate] end. match type of E with match ?t with _ => _ end = _ => destruct t as [a1|] eqn:E1; [|discriminate] end. match type of E with match ?t with _ => _ end = _ => destruct t as [a2|] eqn:E2; [|discriminate] end. match type of E with match ?t with _ => _ end = _ => destruct t as [a3|] eqn:E3; [|discriminate] end. match type of E with match ?t with _ => _ end = _ => destruct t as [a4|] eqn:E4; [|discriminate] end. match type of E with match ?t with _ => _ end = _ => destruct t as [a5|] eqn:E5; [|discriminate] end. match type of E with match ?t with _ => _ end = _ => destruct t as [a6|] eqn:E6; [|discriminate] end. match type of E with match ?t with _ => _ end = _ => destruct t as [a7|] eqn:E7; [|discriminate] end. match type of E with match ?t with _ => _ end = _ => destruct t as [a10|] eqn:E10; [|discriminate] end. match type of E with match ?t with _ => _ end = _ => destruct t as [a11|] eqn:E11; [|discriminate] end. intros m Hm. cbn [In] in Hm. repeat (destruct Hm as [Hm|Hm]; [|]); try (injection Hm as <-); try contradiction; first [discriminate | eapply req_present; eassumption].
Qed.
Lemma output_json f : json f c_output.
Proof.
  intros E x. apply struct_json. unfold sp_fields.
  destruct feat_sp; cbn [app].
  - constructor; [exact ((fjson _ _ sl_amount f) E _)|]. constructor; [exact ((fjson _ _ sl_script f) E _)|]. constructor; [exact ((opt_json f _ (fjson _ _ sl_script f)) E _)|]. constructor; [exact ((opt_json f _ (fjson _ _ sl_script f)) E _)|]. constructor; [exact ((as_seq_json f bkey _ _ (fjson _ _ sl_secp f) (keysource_json f)) E _)|]. constructor; [exact ((opt_json f _ (fjson _ _ sl_xonly f)) E _)|]. constructor; [exact ((opt_json f _ (fun E t => sl_tap_tree_json f t E)) E _)|]. constructor; [exact ((as_seq_json f bkey _ _ (fjson _ _ sl_xonly f) (origin_json f)) E _)|]. constructor; [exact ((opt_json f _ (vec_json f _ (byte_json f))) E _)|]. constructor; [exact ((opt_json f _ (num_json f U32)) E _)|]. constructor; [exact ((seq_bytes_json f sk_propkey _ (propkey_json f)) E _)|]. constructor; [exact ((seq_bytes_json f sk_key _ (key_json f)) E _)|]. constructor.
  - constructor; [exact ((fjson _ _ sl_amount f) E _)|]. constructor; [exact ((fjson _ _ sl_script f) E _)|]. constructor; [exact ((opt_json f _ (fjson _ _ sl_script f)) E _)|]. constructor; [exact ((opt_json f _ (fjson _ _ sl_script f)) E _)|]. constructor; [exact ((as_seq_json f bkey _ _ (fjson _ _ sl_secp f) (keysource_json f)) E _)|]. constructor; [exact ((opt_json f _ (fjson _ _ sl_xonly f)) E _)|]. constructor; [exact ((opt_json f _ (fun E t => sl_tap_tree_json f t E)) E _)|]. constructor; [exact ((as_seq_json f bkey _ _ (fjson _ _ sl_xonly f) (origin_json f)) E _)|]. constructor; [exact ((seq_bytes_json f sk_propkey _ (propkey_json f)) E _)|]. constructor; [exact ((seq_bytes_json f sk_key _ (key_json f)) E _)|]. constructor.
Qed.
Lemma output_sound f : sound f typed_output c_output.
Proof.
  intros v x E. cbn [c_de c_output] in E. unfold de_output in E.
  destruct (struct_fields output_fields v) as [l|]; [|discriminate].
  match type of E with match ?t with _ => _ end = _ => destruct t as [a0|] eqn:E0; [|discriminate] end.
  match type of E with match ?t with _ => _ end = _ => destruct t as [a1|] eqn:E1; [|discriminate] end.
  match type of E with match ?t with _ => _ end = _ => destruct t as [a2|] eqn:E2; [|discriminate] end.
  match type of E with match ?t with _ => _ end = _ => destruct t as [a3|] eqn:E3; [|discriminate] end.
  match type of E with match ?t with _ => _ end = _ => destruct t as [a4|] eqn:E4; [|discriminate] end.
  match type of E with match ?t with _ => _ end = _ => destruct t as [a5|] eqn:E5; [|discriminate] end.
  match type of E with match ?t with _ => _ end = _ => destruct t as [a6|] eqn:E6; [|discriminate] end.
  match type of E with match ?t with _ => _ end = _ => destruct t as [a7|] eqn:E7; [|discriminate] end.
  match type of E with match ?t with _ => _ end = _ => destruct t as [a8|] eqn:E8; [|discriminate] end.
  match type of E with match ?t with _ => _ end = _ => destruct t as [a9|] eqn:E9; [|discriminate] end.
  match type of E with match ?t with _ => _ end = _ => destruct t as [a10|] eqn:E10; [|discriminate] end.
  match type of E with match ?t with _ => _ end = _ => destruct t as [a11|] eqn:E11; [|discriminate] end.
  injection E as <-. constructor; cbn [out_amount out_script_pubkey out_redeem_script out_witness_script out_bip32_derivations out_tap_internal_key out_tap_tree out_tap_key_origins out_sp_v0_info out_sp_v0_label out_proprietaries out_unknowns].
  - exact (req_field_sound f _ _ _ _ _ (fsound _ _ sl_amount f) E0).
  - exact (req_field_sound f _ _ _ _ _ (fsound _ _ sl_script f) E1).
  - exact (opt_field_sound f _ _ _ _ _ (fsound _ _ sl_script f) E2).
  - exact (opt_field_sound f _ _ _ _ _ (fsound _ _ sl_script f) E3).
  - exact (req_field_sound f _ _ _ _ _ (as_seq_sound f bkey _ _ _ _ bkey_inj (fsound _ _ sl_secp f) (keysource_sound f)) E4).
  - exact (opt_field_sound f _ _ _ _ _ (fsound _ _ sl_xonly f) E5).
  - exact (opt_field_sound f _ _ _ _ _ (sl_tap_tree_typed f) E6).
  - exact (req_field_sound f _ _ _ _ _ (as_seq_sound f bkey _ _ _ _ bkey_inj (fsound _ _ sl_xonly f) (origin_sound f)) E7).
  - unfold sp_field. unfold sp_opt_field in E8. destruct feat_sp; [exact (opt_field_sound f _ _ _ _ _ (any_sound f _) E8)|now injection E8].
  - unfold sp_field. unfold sp_opt_field in E9. destruct feat_sp; [exact (opt_field_sound f _ _ _ _ _ (num_sound f U32) E9)|now injection E9].
  - exact (req_field_sound f _ _ _ _ _ (seq_bytes_sound f sk_propkey _ _ sk_propkey_inj (any_sound f _)) E10).
  - exact (req_field_sound f _ _ _ _ _ (seq_bytes_sound f sk_key _ _ sk_key_inj (any_sound f _)) E11).
Qed.
Lemma output_back f x : typed_output x -> exists y, de_output f (ser_output f x) = Some y /\ output_eq x y.
Proof.
  intros T.
  destruct (tap_tree_back f (out_tap_tree x) (tyo_tap_tree _ T)) as (o & Ho & Eo).
  exists (set_out_tap_tree o x). split; [|split; [symmetry; exact Eo|now destruct x]].
  unfold ser_output, set_out_tap_tree. apply output_vals.
  - exact ((fback _ _ sl_amount f) _ (tyo_amount _ T)).
  - exact ((fback _ _ sl_script f) _ (tyo_script_pubkey _ T)).
  - exact (opt_back f _ _ (fback _ _ sl_script f) (fsome _ _ sl_script f) _ (tyo_redeem_script _ T)).
  - exact (opt_back f _ _ (fback _ _ sl_script f) (fsome _ _ sl_script f) _ (tyo_witness_script _ T)).
  - exact ((as_seq_back f bkey _ _ _ _ bkey_inj (fback _ _ sl_secp f) (keysource_back f)) _ (tyo_bip32_derivations _ T)).
  - exact (opt_back f _ _ (fback _ _ sl_xonly f) (fsome _ _ sl_xonly f) _ (tyo_tap_internal_key _ T)).
  - exact Ho.
  - exact ((as_seq_back f bkey _ _ _ _ bkey_inj (fback _ _ sl_xonly f) (origin_back f)) _ (tyo_tap_key_origins _ T)).
  - pose proof (tyo_sp_v0_info _ T) as Q; unfold sp_field in Q; destruct feat_sp; [exact (opt_back f _ _ (bytes_back f) (bytes_some f) _ Q)|exact Q].
  - pose proof (tyo_sp_v0_label _ T) as Q; unfold sp_field in Q; destruct feat_sp; [exact (opt_back f _ _ (num_back f U32) (num_some f U32) _ Q)|exact Q].
  - exact ((seq_bytes_back f sk_propkey _ _ sk_propkey_inj (propkey_back f)) _ (tyo_proprietaries _ T)).
  - exact ((seq_bytes_back f sk_key _ _ sk_key_inj (key_back f)) _ (tyo_unknowns _ T)).
Qed.
Lemma psbt_vals f v0 v1 v2 a0 a1 a2 :
  c_de c_global f v0 = Some a0 ->
  c_de (c_vec c_input) f v1 = Some a1 ->
  c_de (c_vec c_output) f v2 = Some a2 ->
  de_psbt f (ser_struct ([(str "global", v0); (str "inputs", v1); (str "outputs", v2)])) = Some (Psbt a0 a1 a2).
Proof.
  intros H0 H1 H2.
  unfold de_psbt, psbt_fields, sp_req_field, sp_opt_field, sp_fields, req_field, opt_field in *.
  field_step. lookup_step. rewrite H0. lookup_step. rewrite H1. lookup_step. rewrite H2. reflexivity.
Qed.
Lemma psbt_vals_inv f v0 v1 v2 x :
  de_psbt f (ser_struct ([(str "global", v0); (str "inputs", v1); (str "outputs", v2)])) = Some x ->
  c_de c_global f v0 = Some (p_global x) /\
  c_de (c_vec c_input) f v1 = Some (p_inputs x) /\
  c_de (c_vec c_output) f v2 = Some (p_outputs x).
Proof.
  unfold de_psbt, psbt_fields, sp_req_field, sp_opt_field, sp_fields, req_field, opt_field.
  field_step. lookup_step. destruct (c_de c_global f v0) as [a0|]; [|discriminate]. lookup_step. destruct (c_de (c_vec c_input) f v1) as [a1|]; [|discriminate]. lookup_step. destruct (c_de (c_vec c_output) f v2) as [a2|]; [|discriminate]. intros E; injection E as <-; auto 40.
Qed.
Definition build_psbt (f : fmt) (l : list (bytes * sval)) : option psbt :=
  a0 <~ req_field c_global f (str "global") l ;;
  a1 <~ req_field (c_vec c_input) f (str "inputs") l ;;
  a2 <~ req_field (c_vec c_output) f (str "outputs") l ;;
  Some (Psbt a0 a1 a2).
Lemma psbt_lookup : lookup psbt_fields psbt_members de_psbt.
Proof.
  exists build_psbt. split; [reflexivity|split; [|split; [unfold psbt_fields, psbt_members, sp_fields; reflexivity|]]].
  - unfold psbt_members. intros f l l' H. unfold build_psbt, sp_req_field, sp_opt_field. rewrite (req_agree _ _ f (str "global") l l' H eq_refl). rewrite (req_agree _ _ f (str "inputs") l l' H eq_refl). rewrite (req_agree _ _ f (str "outputs") l l' H eq_refl). reflexivity.
  - unfold psbt_members. intros f l x E. unfold build_psbt, sp_req_field, sp_opt_field in E. match type of E with match ?t with _ => _ end = _ => destruct t as [a0|] eqn:E0; [|discriminate] end. match type of E with match ?t with _ => _ end = _ => destruct t as [a1|] eqn:E1; [|discriminate] end. match type of E with match ?t with _ => _ end = _ => destruct t as [a2|] eqn:E2; [|discriminate] end. intros m Hm. cbn [In] in Hm. repeat (destruct Hm as [Hm|Hm]; [|]); try (injection Hm as <-); try contradiction; first [discriminate | eapply req_present; eassumption].
Qed.
Lemma psbt_json f : json f c_psbt.
Proof.
  intros E x. apply struct_json. unfold sp_fields.
  constructor; [exact ((global_json f) E _)|]. constructor; [exact ((vec_json f _ (input_json f)) E _)|]. constructor; [exact ((vec_json f _ (output_json f)) E _)|]. constructor.
Qed.
Lemma psbt_sound f : sound f typed_psbt c_psbt.
Proof.
  intros v x E. cbn [c_de c_psbt] in E. unfold de_psbt in E.
  destruct (struct_fields psbt_fields v) as [l|]; [|discriminate].
  match type of E with match ?t with _ => _ end = _ => destruct t as [a0|] eqn:E0; [|discriminate] end.
  match type of E with match ?t with _ => _ end = _ => destruct t as [a1|] eqn:E1; [|discriminate] end.
  match type of E with match ?t with _ => _ end = _ => destruct t as [a2|] eqn:E2; [|discriminate] end.
  injection E as <-. constructor; cbn [p_global p_inputs p_outputs].
  - exact (req_field_sound f _ _ _ _ _ (global_sound f) E0).
  - exact (req_field_sound f _ _ _ _ _ (vec_sound f _ _ (input_sound f)) E1).
  - exact (req_field_sound f _ _ _ _ _ (vec_sound f _ _ (output_sound f)) E2).
Qed.
Lemma input0_vals f v0 v1 v2 v3 v4 v5 v6 v7 v8 v9 v10 v11 v12 v13 v14 v15 v16 v17 v18 v19 v20 a0 a1 a2 a3 a4 a5 a6 a7 a8 a9 a10 a11 a12 a13 a14 a15 a16 a17 a18 a19 a20 :
  c_de (c_opt xc_tx) f v0 = Some a0 ->
  c_de (c_opt xc_txout) f v1 = Some a1 ->
  c_de (c_map sk_pubkey xc_pubkey xc_esig) f v2 = Some a2 ->
  c_de (c_opt c_sighash_type) f v3 = Some a3 ->
  c_de (c_opt xc_script) f v4 = Some a4 ->
  c_de (c_opt xc_script) f v5 = Some a5 ->
  c_de (c_as_seq bkey xc_secp c_keysource) f v6 = Some a6 ->
  c_de (c_opt xc_script) f v7 = Some a7 ->
  c_de (c_opt xc_witness) f v8 = Some a8 ->
  c_de (c_byte_values bkey xc_ripemd160) f v9 = Some a9 ->
  c_de (c_byte_values bkey xc_sha256) f v10 = Some a10 ->
  c_de (c_byte_values bkey xc_hash160) f v11 = Some a11 ->
  c_de (c_byte_values bkey xc_sha256d) f v12 = Some a12 ->
  c_de (c_opt xc_tsig) f v13 = Some a13 ->
  c_de (c_as_seq sk_xleaf (c_pair xc_xonly xc_leaf_hash) xc_tsig) f v14 = Some a14 ->
  c_de (c_as_seq sk_controlblock xc_control_block (c_pair xc_script xc_leaf_version)) f v15 = Some a15 ->
  c_de (c_as_seq bkey xc_xonly (c_pair (c_vec xc_leaf_hash) c_keysource)) f v16 = Some a16 ->
  c_de (c_opt xc_xonly) f v17 = Some a17 ->
  c_de (c_opt xc_node_hash) f v18 = Some a18 ->
  c_de (c_seq_byte_values sk_propkey c_propkey) f v19 = Some a19 ->
  c_de (c_seq_byte_values sk_key c_key) f v20 = Some a20 ->
  de_input0 f (ser_struct ([(str "non_witness_utxo", v0); (str "witness_utxo", v1); (str "partial_sigs", v2); (str "sighash_type", v3); (str "redeem_script", v4); (str "witness_script", v5); (str "bip32_derivation", v6); (str "final_script_sig", v7); (str "final_script_witness", v8); (str "ripemd160_preimages", v9); (str "sha256_preimages", v10); (str "hash160_preimages", v11); (str "hash256_preimages", v12); (str "tap_key_sig", v13); (str "tap_script_sigs", v14); (str "tap_scripts", v15); (str "tap_key_origins", v16); (str "tap_internal_key", v17); (str "tap_merkle_root", v18); (str "proprietary", v19); (str "unknown", v20)])) = Some (Input0 a0 a1 a2 a3 a4 a5 a6 a7 a8 a9 a10 a11 a12 a13 a14 a15 a16 a17 a18 a19 a20).
Proof.
  intros H0 H1 H2 H3 H4 H5 H6 H7 H8 H9 H10 H11 H12 H13 H14 H15 H16 H17 H18 H19 H20.
  unfold de_input0, input0_fields, sp_req_field, sp_opt_field, sp_fields, req_field, opt_field in *.
  field_step. lookup_step. rewrite H0. lookup_step. rewrite H1. lookup_step. rewrite H2. lookup_step. rewrite H3. lookup_step. rewrite H4. lookup_step. rewrite H5. lookup_step. rewrite H6. lookup_step. rewrite H7. lookup_step. rewrite H8. lookup_step. rewrite H9. lookup_step. rewrite H10. lookup_step. rewrite H11. lookup_step. rewrite H12. lookup_step. rewrite H13. lookup_step. rewrite H14. lookup_step. rewrite H15. lookup_step. rewrite H16. lookup_step. rewrite H17. lookup_step. rewrite H18. lookup_step. rewrite H19. lookup_step. rewrite H20. reflexivity.
Qed.
Lemma input0_vals_inv f v0 v1 v2 v3 v4 v5 v6 v7 v8 v9 v10 v11 v12 v13 v14 v15 v16 v17 v18 v19 v20 x :
  de_input0 f (ser_struct ([(str "non_witness_utxo", v0); (str "witness_utxo", v1); (str "partial_sigs", v2); (str "sighash_type", v3); (str "redeem_script", v4); (str "witness_script", v5); (str "bip32_derivation", v6); (str "final_script_sig", v7); (str "final_script_witness", v8); (str "ripemd160_preimages", v9); (str "sha256_preimages", v10); (str "hash160_preimages", v11); (str "hash256_preimages", v12); (str "tap_key_sig", v13); (str "tap_script_sigs", v14); (str "tap_scripts", v15); (str "tap_key_origins", v16); (str "tap_internal_key", v17); (str "tap_merkle_root", v18); (str "proprietary", v19); (str "unknown", v20)])) = Some x ->
  c_de (c_opt xc_tx) f v0 = Some (i0_non_witness_utxo x) /\
  c_de (c_opt xc_txout) f v1 = Some (i0_witness_utxo x) /\
  c_de (c_map sk_pubkey xc_pubkey xc_esig) f v2 = Some (i0_partial_sigs x) /\
  c_de (c_opt c_sighash_type) f v3 = Some (i0_sighash_type x) /\
  c_de (c_opt xc_script) f v4 = Some (i0_redeem_script x) /\
  c_de (c_opt xc_script) f v5 = Some (i0_witness_script x) /\
  c_de (c_as_seq bkey xc_secp c_keysource) f v6 = Some (i0_bip32_derivation x) /\
  c_de (c_opt xc_script) f v7 = Some (i0_final_script_sig x) /\
  c_de (c_opt xc_witness) f v8 = Some (i0_final_script_witness x) /\
  c_de (c_byte_values bkey xc_ripemd160) f v9 = Some (i0_ripemd160_preimages x) /\
  c_de (c_byte_values bkey xc_sha256) f v10 = Some (i0_sha256_preimages x) /\
  c_de (c_byte_values bkey xc_hash160) f v11 = Some (i0_hash160_preimages x) /\
  c_de (c_byte_values bkey xc_sha256d) f v12 = Some (i0_hash256_preimages x) /\
  c_de (c_opt xc_tsig) f v13 = Some (i0_tap_key_sig x) /\
  c_de (c_as_seq sk_xleaf (c_pair xc_xonly xc_leaf_hash) xc_tsig) f v14 = Some (i0_tap_script_sigs x) /\
  c_de (c_as_seq sk_controlblock xc_control_block (c_pair xc_script xc_leaf_version)) f v15 = Some (i0_tap_scripts x) /\
  c_de (c_as_seq bkey xc_xonly (c_pair (c_vec xc_leaf_hash) c_keysource)) f v16 = Some (i0_tap_key_origins x) /\
  c_de (c_opt xc_xonly) f v17 = Some (i0_tap_internal_key x) /\
  c_de (c_opt xc_node_hash) f v18 = Some (i0_tap_merkle_root x) /\
  c_de (c_seq_byte_values sk_propkey c_propkey) f v19 = Some (i0_proprietary x) /\
  c_de (c_seq_byte_values sk_key c_key) f v20 = Some (i0_unknown x).
Proof.
  unfold de_input0, input0_fields, sp_req_field, sp_opt_field, sp_fields, req_field, opt_field.
  field_step. lookup_step. destruct (c_de (c_opt xc_tx) f v0) as [a0|]; [|discriminate]. lookup_step. destruct (c_de (c_opt xc_txout) f v1) as [a1|]; [|discriminate]. lookup_step. destruct (c_de (c_map sk_pubkey xc_pubkey xc_esig) f v2) as [a2|]; [|discriminate]. lookup_step. destruct (c_de (c_opt c_sighash_type) f v3) as [a3|]; [|discriminate]. lookup_step. destruct (c_de (c_opt xc_script) f v4) as [a4|]; [|discriminate]. lookup_step. destruct (c_de (c_opt xc_script) f v5) as [a5|]; [|discriminate]. lookup_step. destruct (c_de (c_as_seq bkey xc_secp c_keysource) f v6) as [a6|]; [|discriminate]. lookup_step. destruct (c_de (c_opt xc_script) f v7) as [a7|]; [|discriminate]. lookup_step. destruct (c_de (c_opt xc_witness) f v8) as [a8|]; [|discriminate]. lookup_step. destruct (c_de (c_byte_values bkey xc_ripemd160) f v9) as [a9|]; [|discriminate]. lookup_step. destruct (c_de (c_byte_values bkey xc_sha256) f v10) as [a10|]; [|discriminate]. lookup_step. destruct (c_de (c_byte_values bkey xc_hash160) f v11) as [a11|]; [|discriminate]. lookup_step. destruct (c_de (c_byte_values bkey xc_sha256d) f v12) as [a12|]; [|discriminate]. lookup_step. destruct (c_de (c_opt xc_tsig) f v13) as [a13|]; [|discriminate]. lookup_step. destruct (c_de (c_as_seq sk_xleaf (c_pair xc_xonly xc_leaf_hash) xc_tsig) f v14) as [a14|]; [|discriminate]. lookup_step. destruct (c_de (c_as_seq sk_controlblock xc_control_block (c_pair xc_script xc_leaf_version)) f v15) as [a15|]; [|discriminate]. lookup_step. destruct (c_de (c_as_seq bkey xc_xonly (c_pair (c_vec xc_leaf_hash) c_keysource)) f v16) as [a16|]; [|discriminate]. lookup_step. destruct (c_de (c_opt xc_xonly) f v17) as [a17|]; [|discriminate]. lookup_step. destruct (c_de (c_opt xc_node_hash) f v18) as [a18|]; [|discriminate]. lookup_step. destruct (c_de (c_seq_byte_values sk_propkey c_propkey) f v19) as [a19|]; [|discriminate]. lookup_step. destruct (c_de (c_seq_byte_values sk_key c_key) f v20) as [a20|]; [|discriminate]. intros E; injection E as <-; auto 40.
Qed.
Definition build_input0 (f : fmt) (l : list (bytes * sval)) : option input0 :=
  a0 <~ opt_field xc_tx f (str "non_witness_utxo") l ;;
  a1 <~ opt_field xc_txout f (str "witness_utxo") l ;;
  a2 <~ req_field (c_map sk_pubkey xc_pubkey xc_esig) f (str "partial_sigs") l ;;
  a3 <~ opt_field c_sighash_type f (str "sighash_type") l ;;
  a4 <~ opt_field xc_script f (str "redeem_script") l ;;
  a5 <~ opt_field xc_script f (str "witness_script") l ;;
  a6 <~ req_field (c_as_seq bkey xc_secp c_keysource) f (str "bip32_derivation") l ;;
  a7 <~ opt_field xc_script f (str "final_script_sig") l ;;
  a8 <~ opt_field xc_witness f (str "final_script_witness") l ;;
  a9 <~ req_field (c_byte_values bkey xc_ripemd160) f (str "ripemd160_preimages") l ;;
  a10 <~ req_field (c_byte_values bkey xc_sha256) f (str "sha256_preimages") l ;;
  a11 <~ req_field (c_byte_values bkey xc_hash160) f (str "hash160_preimages") l ;;
  a12 <~ req_field (c_byte_values bkey xc_sha256d) f (str "hash256_preimages") l ;;
  a13 <~ opt_field xc_tsig f (str "tap_key_sig") l ;;
  a14 <~ req_field (c_as_seq sk_xleaf (c_pair xc_xonly xc_leaf_hash) xc_tsig) f (str "tap_script_sigs") l ;;
  a15 <~ req_field (c_as_seq sk_controlblock xc_control_block (c_pair xc_script xc_leaf_version)) f (str "tap_scripts") l ;;
  a16 <~ req_field (c_as_seq bkey xc_xonly (c_pair (c_vec xc_leaf_hash) c_keysource)) f (str "tap_key_origins") l ;;
  a17 <~ opt_field xc_xonly f (str "tap_internal_key") l ;;
  a18 <~ opt_field xc_node_hash f (str "tap_merkle_root") l ;;
  a19 <~ req_field (c_seq_byte_values sk_propkey c_propkey) f (str "proprietary") l ;;
  a20 <~ req_field (c_seq_byte_values sk_key c_key) f (str "unknown") l ;;
  Some (Input0 a0 a1 a2 a3 a4 a5 a6 a7 a8 a9 a10 a11 a12 a13 a14 a15 a16 a17 a18 a19 a20).
Lemma input0_lookup : lookup input0_fields input0_members de_input0.
Proof.
  exists build_input0. split; [reflexivity|split; [|split; [unfold input0_fields, input0_members, sp_fields; reflexivity|]]].
  - unfold input0_members. intros f l l' H. unfold build_input0, sp_req_field, sp_opt_field. rewrite (opt_agree _ _ f (str "non_witness_utxo") l l' H). rewrite (opt_agree _ _ f (str "witness_utxo") l l' H). rewrite (req_agree _ _ f (str "partial_sigs") l l' H eq_refl). rewrite (opt_agree _ _ f (str "sighash_type") l l' H). rewrite (opt_agree _ _ f (str "redeem_script") l l' H). rewrite (opt_agree _ _ f (str "witness_script") l l' H). rewrite (req_agree _ _ f (str "bip32_derivation") l l' H eq_refl). rewrite (opt_agree _ _ f (str "final_script_sig") l l' H). rewrite (opt_agree _ _ f (str "final_script_witness") l l' H). rewrite (req_agree _ _ f (str "ripemd160_preimages") l l' H eq_refl). rewrite (req_agree _ _ f (str "sha256_preimages") l l' H eq_refl). rewrite (req_agree _ _ f (str "hash160_preimages") l l' H eq_refl). rewrite (req_agree _ _ f (str "hash256_preimages") l l' H eq_refl). rewrite (opt_agree _ _ f (str "tap_key_sig") l l' H). rewrite (req_agree _ _ f (str "tap_script_sigs") l l' H eq_refl). rewrite (req_agree _ _ f (str "tap_scripts") l l' H eq_refl). rewrite (req_agree _ _ f (str "tap_key_origins") l l' H eq_refl). rewrite (opt_agree _ _ f (str "tap_internal_key") l l' H). rewrite (opt_agree _ _ f (str "tap_merkle_root") l l' H). rewrite (req_agree _ _ f (str "proprietary") l l' H eq_refl). rewrite (req_agree _ _ f (str "unknown") l l' H eq_refl). reflexivity.
  - unfold input0_members. intros f l x E. unfold build_input0, sp_req_field, sp_opt_field in E. match type of E with match ?t with _ => _ end = _ => destruct t as [a0|] eqn:E0; [|discriminate] end. match type of E with match ?t with _ => _ end = _ => destruct t as [a1|] eqn:E1; [|discriminate] end. match type of E with match ?t with _ => _ end = _ => destruct t as [a2|] eqn:E2; [|discriminate] end. match type of E with match ?t with _ => _ end = _ => destruct t as [a3|] eqn:E3; [|discriminate] end. match type of E with match ?t with _ => _ end = _ => destruct t as [a4|] eqn:E4; [|discriminate] end. match type of E with match ?t with _ => _ end = _ => destruct t as [a5|] eqn:E5; [|discriminate] end. match type of E with match ?t with _ => _ end = _ => destruct t as [a6|] eqn:E6; [|discriminate] end. match type of E with match ?t with _ => _ end = _ => destruct t as [a7|] eqn:E7; [|discriminate] end. match type of E with match ?t with _ => _ end = _ => destruct t as [a8|] eqn:E8; [|discriminate] end. match type of E with match ?t with _ => _ end = _ => destruct t as [a9|] eqn:E9; [|discriminate] end. match type of E with match ?t with _ => _ end = _ => destruct t as [a10|] eqn:E10; [|discriminate] end. match type of E with match ?t with _ => _ end = _ => destruct t as [a11|] eqn:E11; [|discriminate] end. match type of E with match ?t with _ => _ end = _ => destruct t as [a12|] eqn:E12; [|discriminate] end. match type of E with match ?t with _ => _ end = _ => destruct t as [a13|] eqn:E13; [|discriminate] end. match type of E with match ?t with _ => _ end = _ => destruct t as [a14|] eqn:E14; [|discriminate] end. match type of E with match ?t with _ => _ end = _ => destruct t as [a15|] eqn:E15; [|discriminate] end. match type of E with match ?t with _ => _ end = _ => destruct t as [a16|] eqn:E16; [|discriminate] end. match type of E with match ?t with _ => _ end = _ => destruct t as [a17|] eqn:E17; [|discriminate] end. match type of E with match ?t with _ => _ end = _ => destruct t as [a18|] eqn:E18; [|discriminate] end. match type of E with match ?t with _ => _ end = _ => destruct t as [a19|] eqn:E19; [|discriminate] end. match type of E with match ?t with _ => _ end = _ => destruct t as [a20|] eqn:E20; [|discriminate] end. intros m Hm. cbn [In] in Hm. repeat (destruct Hm as [Hm|Hm]; [|]); try (injection Hm as <-); try contradiction; first [discriminate | eapply req_present; eassumption].
Qed.
Lemma input0_json f : json f c_input0.
Proof.
  intros E x. apply struct_json. unfold sp_fields.
  constructor; [exact ((opt_json f _ (fjson _ _ sl_tx f)) E _)|]. constructor; [exact ((opt_json f _ (fjson _ _ sl_txout f)) E _)|]. constructor; [exact ((map_json f sk_pubkey _ _ sl_pubkey_text (fjson _ _ sl_esig f)) E _)|]. constructor; [exact ((opt_json f _ (sighash_json f)) E _)|]. constructor; [exact ((opt_json f _ (fjson _ _ sl_script f)) E _)|]. constructor; [exact ((opt_json f _ (fjson _ _ sl_script f)) E _)|]. constructor; [exact ((as_seq_json f bkey _ _ (fjson _ _ sl_secp f) (keysource_json f)) E _)|]. constructor; [exact ((opt_json f _ (fjson _ _ sl_script f)) E _)|]. constructor; [exact ((opt_json f _ (fjson _ _ sl_witness f)) E _)|]. constructor; [exact ((byte_values_json f bkey _ sl_ripemd160_text) E _)|]. constructor; [exact ((byte_values_json f bkey _ sl_sha256_text) E _)|]. constructor; [exact ((byte_values_json f bkey _ sl_hash160_text) E _)|]. constructor; [exact ((byte_values_json f bkey _ sl_sha256d_text) E _)|]. constructor; [exact ((opt_json f _ (fjson _ _ sl_tsig f)) E _)|]. constructor; [exact ((as_seq_json f sk_xleaf _ _ (xleaf_json f) (fjson _ _ sl_tsig f)) E _)|]. constructor; [exact ((as_seq_json f sk_controlblock _ _ (fjson _ _ sl_control_block f) (leafscript_json f)) E _)|]. constructor; [exact ((as_seq_json f bkey _ _ (fjson _ _ sl_xonly f) (origin_json f)) E _)|]. constructor; [exact ((opt_json f _ (fjson _ _ sl_xonly f)) E _)|]. constructor; [exact ((opt_json f _ (fjson _ _ sl_node_hash f)) E _)|]. constructor; [exact ((seq_bytes_json f sk_propkey _ (propkey_json f)) E _)|]. constructor; [exact ((seq_bytes_json f sk_key _ (key_json f)) E _)|]. constructor.
Qed.
Lemma input0_sound f : sound f typed_input0 c_input0.
Proof.
  intros v x E. cbn [c_de c_input0] in E. unfold de_input0 in E.
  destruct (struct_fields input0_fields v) as [l|]; [|discriminate].
  match type of E with match ?t with _ => _ end = _ => destruct t as [a0|] eqn:E0; [|discriminate] end.
  match type of E with match ?t with _ => _ end = _ => destruct t as [a1|] eqn:E1; [|discriminate] end.
  match type of E with match ?t with _ => _ end = _ => destruct t as [a2|] eqn:E2; [|discriminate] end.
  match type of E with match ?t with _ => _ end = _ => destruct t as [a3|] eqn:E3; [|discriminate] end.
  match type of E with match ?t with _ => _ end = _ => destruct t as [a4|] eqn:E4; [|discriminate] end.
  match type of E with match ?t with _ => _ end = _ => destruct t as [a5|] eqn:E5; [|discriminate] end.
  match type of E with match ?t with _ => _ end = _ => destruct t as [a6|] eqn:E6; [|discriminate] end.
  match type of E with match ?t with _ => _ end = _ => destruct t as [a7|] eqn:E7; [|discriminate] end.
  match type of E with match ?t with _ => _ end = _ => destruct t as [a8|] eqn:E8; [|discriminate] end.
  match type of E with match ?t with _ => _ end = _ => destruct t as [a9|] eqn:E9; [|discriminate] end.
  match type of E with match ?t with _ => _ end = _ => destruct t as [a10|] eqn:E10; [|discriminate] end.
  match type of E with match ?t with _ => _ end = _ => destruct t as [a11|] eqn:E11; [|discriminate] end.
  match type of E with match ?t with _ => _ end = _ => destruct t as [a12|] eqn:E12; [|discriminate] end.
  match type of E with match ?t with _ => _ end = _ => destruct t as [a13|] eqn:E13; [|discriminate] end.
  match type of E with match ?t with _ => _ end = _ => destruct t as [a14|] eqn:E14; [|discriminate] end.
  match type of E with match ?t with _ => _ end = _ => destruct t as [a15|] eqn:E15; [|discriminate] end.
  match type of E with match ?t with _ => _ end = _ => destruct t as [a16|] eqn:E16; [|discriminate] end.
  match type of E with match ?t with _ => _ end = _ => destruct t as [a17|] eqn:E17; [|discriminate] end.
  match type of E with match ?t with _ => _ end = _ => destruct t as [a18|] eqn:E18; [|discriminate] end.
  match type of E with match ?t with _ => _ end = _ => destruct t as [a19|] eqn:E19; [|discriminate] end.
  match type of E with match ?t with _ => _ end = _ => destruct t as [a20|] eqn:E20; [|discriminate] end.
  injection E as <-. constructor; cbn [i0_non_witness_utxo i0_witness_utxo i0_partial_sigs i0_sighash_type i0_redeem_script i0_witness_script i0_bip32_derivation i0_final_script_sig i0_final_script_witness i0_ripemd160_preimages i0_sha256_preimages i0_hash160_preimages i0_hash256_preimages i0_tap_key_sig i0_tap_script_sigs i0_tap_scripts i0_tap_key_origins i0_tap_internal_key i0_tap_merkle_root i0_proprietary i0_unknown].
  - exact (opt_field_sound f _ _ _ _ _ (fsound _ _ sl_tx f) E0).
  - exact (opt_field_sound f _ _ _ _ _ (fsound _ _ sl_txout f) E1).
  - exact (req_field_sound f _ _ _ _ _ (map_sound f sk_pubkey _ _ _ _ sk_pubkey_inj (fsound _ _ sl_pubkey f) (fsound _ _ sl_esig f)) E2).
  - exact (opt_field_sound f _ _ _ _ _ (sighash_sound f) E3).
  - exact (opt_field_sound f _ _ _ _ _ (fsound _ _ sl_script f) E4).
  - exact (opt_field_sound f _ _ _ _ _ (fsound _ _ sl_script f) E5).
  - exact (req_field_sound f _ _ _ _ _ (as_seq_sound f bkey _ _ _ _ bkey_inj (fsound _ _ sl_secp f) (keysource_sound f)) E6).
  - exact (opt_field_sound f _ _ _ _ _ (fsound _ _ sl_script f) E7).
  - exact (opt_field_sound f _ _ _ _ _ (fsound _ _ sl_witness f) E8).
  - exact (req_field_sound f _ _ _ _ _ (byte_values_sound f bkey _ _ bkey_inj (fsound _ _ sl_ripemd160 f)) E9).
  - exact (req_field_sound f _ _ _ _ _ (byte_values_sound f bkey _ _ bkey_inj (fsound _ _ sl_sha256 f)) E10).
  - exact (req_field_sound f _ _ _ _ _ (byte_values_sound f bkey _ _ bkey_inj (fsound _ _ sl_hash160 f)) E11).
  - exact (req_field_sound f _ _ _ _ _ (byte_values_sound f bkey _ _ bkey_inj (fsound _ _ sl_sha256d f)) E12).
  - exact (opt_field_sound f _ _ _ _ _ (fsound _ _ sl_tsig f) E13).
  - exact (req_field_sound f _ _ _ _ _ (as_seq_sound f sk_xleaf _ _ _ _ sk_xleaf_inj (xleaf_sound f) (fsound _ _ sl_tsig f)) E14).
  - exact (req_field_sound f _ _ _ _ _ (as_seq_sound f sk_controlblock _ _ _ _ sk_controlblock_inj (fsound _ _ sl_control_block f) (leafscript_sound f)) E15).
  - exact (req_field_sound f _ _ _ _ _ (as_seq_sound f bkey _ _ _ _ bkey_inj (fsound _ _ sl_xonly f) (origin_sound f)) E16).
  - exact (opt_field_sound f _ _ _ _ _ (fsound _ _ sl_xonly f) E17).
  - exact (opt_field_sound f _ _ _ _ _ (fsound _ _ sl_node_hash f) E18).
  - exact (req_field_sound f _ _ _ _ _ (seq_bytes_sound f sk_propkey _ _ sk_propkey_inj (any_sound f _)) E19).
  - exact (req_field_sound f _ _ _ _ _ (seq_bytes_sound f sk_key _ _ sk_key_inj (any_sound f _)) E20).
Qed.
Lemma input0_back f x : typed_input0 x -> (f_hr f = true -> f_lends f = true \/ no_preimages0 x) -> de_input0 f (ser_input0 f x) = Some x.
Proof.
  intros T L.
  assert (EX : x = Input0 (i0_non_witness_utxo x) (i0_witness_utxo x) (i0_partial_sigs x) (i0_sighash_type x) (i0_redeem_script x) (i0_witness_script x) (i0_bip32_derivation x) (i0_final_script_sig x) (i0_final_script_witness x) (i0_ripemd160_preimages x) (i0_sha256_preimages x) (i0_hash160_preimages x) (i0_hash256_preimages x) (i0_tap_key_sig x) (i0_tap_script_sigs x) (i0_tap_scripts x) (i0_tap_key_origins x) (i0_tap_internal_key x) (i0_tap_merkle_root x) (i0_proprietary x) (i0_unknown x)) by (destruct x; reflexivity).
  rewrite EX at 2. unfold ser_input0. apply input0_vals.
  - exact (opt_back f _ _ (fback _ _ sl_tx f) (fsome _ _ sl_tx f) _ (tyi0_non_witness_utxo _ T)).
  - exact (opt_back f _ _ (fback _ _ sl_txout f) (fsome _ _ sl_txout f) _ (tyi0_witness_utxo _ T)).
  - exact ((map_back f sk_pubkey _ _ _ _ sk_pubkey_inj (fback _ _ sl_pubkey f) (fback _ _ sl_esig f)) _ (tyi0_partial_sigs _ T)).
  - exact (opt_back f _ _ (sighash_back f) (sighash_some f) _ (tyi0_sighash_type _ T)).
  - exact (opt_back f _ _ (fback _ _ sl_script f) (fsome _ _ sl_script f) _ (tyi0_redeem_script _ T)).
  - exact (opt_back f _ _ (fback _ _ sl_script f) (fsome _ _ sl_script f) _ (tyi0_witness_script _ T)).
  - exact ((as_seq_back f bkey _ _ _ _ bkey_inj (fback _ _ sl_secp f) (keysource_back f)) _ (tyi0_bip32_derivation _ T)).
  - exact (opt_back f _ _ (fback _ _ sl_script f) (fsome _ _ sl_script f) _ (tyi0_final_script_sig _ T)).
  - exact (opt_back f _ _ (fback _ _ sl_witness f) (fsome _ _ sl_witness f) _ (tyi0_final_script_witness _ T)).
  - refine ((byte_values_back f bkey _ _ _ bkey_inj (fback _ _ sl_ripemd160 f)) (tyi0_ripemd160_preimages _ T) _). intros E. destruct (L E) as [?|(P0 & P1 & P2 & P3)]; [now left|right; exact P0].
  - refine ((byte_values_back f bkey _ _ _ bkey_inj (fback _ _ sl_sha256 f)) (tyi0_sha256_preimages _ T) _). intros E. destruct (L E) as [?|(P0 & P1 & P2 & P3)]; [now left|right; exact P1].
  - refine ((byte_values_back f bkey _ _ _ bkey_inj (fback _ _ sl_hash160 f)) (tyi0_hash160_preimages _ T) _). intros E. destruct (L E) as [?|(P0 & P1 & P2 & P3)]; [now left|right; exact P2].
  - refine ((byte_values_back f bkey _ _ _ bkey_inj (fback _ _ sl_sha256d f)) (tyi0_hash256_preimages _ T) _). intros E. destruct (L E) as [?|(P0 & P1 & P2 & P3)]; [now left|right; exact P3].
  - exact (opt_back f _ _ (fback _ _ sl_tsig f) (fsome _ _ sl_tsig f) _ (tyi0_tap_key_sig _ T)).
  - exact ((as_seq_back f sk_xleaf _ _ _ _ sk_xleaf_inj (xleaf_back f) (fback _ _ sl_tsig f)) _ (tyi0_tap_script_sigs _ T)).
  - exact ((as_seq_back f sk_controlblock _ _ _ _ sk_controlblock_inj (fback _ _ sl_control_block f) (leafscript_back f)) _ (tyi0_tap_scripts _ T)).
  - exact ((as_seq_back f bkey _ _ _ _ bkey_inj (fback _ _ sl_xonly f) (origin_back f)) _ (tyi0_tap_key_origins _ T)).
  - exact (opt_back f _ _ (fback _ _ sl_xonly f) (fsome _ _ sl_xonly f) _ (tyi0_tap_internal_key _ T)).
  - exact (opt_back f _ _ (fback _ _ sl_node_hash f) (fsome _ _ sl_node_hash f) _ (tyi0_tap_merkle_root _ T)).
  - exact ((seq_bytes_back f sk_propkey _ _ sk_propkey_inj (propkey_back f)) _ (tyi0_proprietary _ T)).
  - exact ((seq_bytes_back f sk_key _ _ sk_key_inj (key_back f)) _ (tyi0_unknown _ T)).
Qed.
Lemma output0_vals f v0 v1 v2 v3 v4 v5 v6 v7 a0 a1 a2 a3 a4 a5 a6 a7 :
  c_de (c_opt xc_script) f v0 = Some a0 ->
  c_de (c_opt xc_script) f v1 = Some a1 ->
  c_de (c_as_seq bkey xc_secp c_keysource) f v2 = Some a2 ->
  c_de (c_opt xc_xonly) f v3 = Some a3 ->
  c_de (c_opt xc_tap_tree) f v4 = Some a4 ->
  c_de (c_as_seq bkey xc_xonly (c_pair (c_vec xc_leaf_hash) c_keysource)) f v5 = Some a5 ->
  c_de (c_seq_byte_values sk_propkey c_propkey) f v6 = Some a6 ->
  c_de (c_seq_byte_values sk_key c_key) f v7 = Some a7 ->
  de_output0 f (ser_struct ([(str "redeem_script", v0); (str "witness_script", v1); (str "bip32_derivation", v2); (str "tap_internal_key", v3); (str "tap_tree", v4); (str "tap_key_origins", v5); (str "proprietary", v6); (str "unknown", v7)])) = Some (Output0 a0 a1 a2 a3 a4 a5 a6 a7).
Proof.
  intros H0 H1 H2 H3 H4 H5 H6 H7.
  unfold de_output0, output0_fields, sp_req_field, sp_opt_field, sp_fields, req_field, opt_field in *.
  field_step. lookup_step. rewrite H0. lookup_step. rewrite H1. lookup_step. rewrite H2. lookup_step. rewrite H3. lookup_step. rewrite H4. lookup_step. rewrite H5. lookup_step. rewrite H6. lookup_step. rewrite H7. reflexivity.
Qed.
Lemma output0_vals_inv f v0 v1 v2 v3 v4 v5 v6 v7 x :
  de_output0 f (ser_struct ([(str "redeem_script", v0); (str "witness_script", v1); (str "bip32_derivation", v2); (str "tap_internal_key", v3); (str "tap_tree", v4); (str "tap_key_origins", v5); (str "proprietary", v6); (str "unknown", v7)])) = Some x ->
  c_de (c_opt xc_script) f v0 = Some (o0_redeem_script x) /\
  c_de (c_opt xc_script) f v1 = Some (o0_witness_script x) /\
  c_de (c_as_seq bkey xc_secp c_keysource) f v2 = Some (o0_bip32_derivation x) /\
  c_de (c_opt xc_xonly) f v3 = Some (o0_tap_internal_key x) /\
  c_de (c_opt xc_tap_tree) f v4 = Some (o0_tap_tree x) /\
  c_de (c_as_seq bkey xc_xonly (c_pair (c_vec xc_leaf_hash) c_keysource)) f v5 = Some (o0_tap_key_origins x) /\
  c_de (c_seq_byte_values sk_propkey c_propkey) f v6 = Some (o0_proprietary x) /\
  c_de (c_seq_byte_values sk_key c_key) f v7 = Some (o0_unknown x).
Proof.
  unfold de_output0, output0_fields, sp_req_field, sp_opt_field, sp_fields, req_field, opt_field.
  field_step. lookup_step. destruct (c_de (c_opt xc_script) f v0) as [a0|]; [|discriminate]. lookup_step. destruct (c_de (c_opt xc_script) f v1) as [a1|]; [|discriminate]. lookup_step. destruct (c_de (c_as_seq bkey xc_secp c_keysource) f v2) as [a2|]; [|discriminate]. lookup_step. destruct (c_de (c_opt xc_xonly) f v3) as [a3|]; [|discriminate]. lookup_step. destruct (c_de (c_opt xc_tap_tree) f v4) as [a4|]; [|discriminate]. lookup_step. destruct (c_de (c_as_seq bkey xc_xonly (c_pair (c_vec xc_leaf_hash) c_keysource)) f v5) as [a5|]; [|discriminate]. lookup_step. destruct (c_de (c_seq_byte_values sk_propkey c_propkey) f v6) as [a6|]; [|discriminate]. lookup_step. destruct (c_de (c_seq_byte_values sk_key c_key) f v7) as [a7|]; [|discriminate]. intros E; injection E as <-; auto 40.
Qed.
Definition build_output0 (f : fmt) (l : list (bytes * sval)) : option output0 :=
  a0 <~ opt_field xc_script f (str "redeem_script") l ;;
  a1 <~ opt_field xc_script f (str "witness_script") l ;;
  a2 <~ req_field (c_as_seq bkey xc_secp c_keysource) f (str "bip32_derivation") l ;;
  a3 <~ opt_field xc_xonly f (str "tap_internal_key") l ;;
  a4 <~ opt_field xc_tap_tree f (str "tap_tree") l ;;
  a5 <~ req_field (c_as_seq bkey xc_xonly (c_pair (c_vec xc_leaf_hash) c_keysource)) f (str "tap_key_origins") l ;;
  a6 <~ req_field (c_seq_byte_values sk_propkey c_propkey) f (str "proprietary") l ;;
  a7 <~ req_field (c_seq_byte_values sk_key c_key) f (str "unknown") l ;;
  Some (Output0 a0 a1 a2 a3 a4 a5 a6 a7).
Lemma output0_lookup : lookup output0_fields output0_members de_output0.
Proof.
  exists build_output0. split; [reflexivity|split; [|split; [unfold output0_fields, output0_members, sp_fields; reflexivity|]]].
  - unfold output0_members. intros f l l' H. unfold build_output0, sp_req_field, sp_opt_field. rewrite (opt_agree _ _ f (str "redeem_script") l l' H). rewrite (opt_agree _ _ f (str "witness_script") l l' H). rewrite (req_agree _ _ f (str "bip32_derivation") l l' H eq_refl). rewrite (opt_agree _ _ f (str "tap_internal_key") l l' H). rewrite (opt_agree _ _ f (str "tap_tree") l l' H). rewrite (req_agree _ _ f (str "tap_key_origins") l l' H eq_refl). rewrite (req_agree _ _ f (str "proprietary") l l' H eq_refl). rewrite (req_agree _ _ f (str "unknown") l l' H eq_refl). reflexivity.
  - unfold output0_members. intros f l x E. unfold build_output0, sp_req_field, sp_opt_field in E. match type of E with match ?t with _ => _ end = _ => destruct t as [a0|] eqn:E0; [|discriminate] end. match type of E with match ?t with _ => _ end = _ => destruct t as [a1|] eqn:E1; [|discriminate] end. match type of E with match ?t with _ => _ end = _ => destruct t as [a2|] eqn:E2; [|discriminate] end. match type of E with match ?t with _ => _ end = _ => destruct t as [a3|] eqn:E3; [|discriminate] end. match type of E with match ?t with _ => _ end = _ => destruct t as [a4|] eqn:E4; [|discriminate] end. match type of E with match ?t with _ => _ end = _ => destruct t as [a5|] eqn:E5; [|discriminate] end. match type of E with match ?t with _ => _ end = _ => destruct t as [a6|] eqn:E6; [|discriminate] end. match type of E with match ?t with _ => _ end = _ => destruct t as [a7|] eqn:E7; [|discriminate] end. intros m Hm. cbn [In] in Hm. repeat (destruct Hm as [Hm|Hm]; [|]); try (injection Hm as <-); try contradiction; first [discriminate | eapply req_present; eassumption].
Qed.
Lemma output0_json f : json f c_output0.
Proof.
  intros E x. apply struct_json. unfold sp_fields.
  constructor; [exact ((opt_json f _ (fjson _ _ sl_script f)) E _)|]. constructor; [exact ((opt_json f _ (fjson _ _ sl_script f)) E _)|]. constructor; [exact ((as_seq_json f bkey _ _ (fjson _ _ sl_secp f) (keysource_json f)) E _)|]. constructor; [exact ((opt_json f _ (fjson _ _ sl_xonly f)) E _)|]. constructor; [exact ((opt_json f _ (fun E t => sl_tap_tree_json f t E)) E _)|]. constructor; [exact ((as_seq_json f bkey _ _ (fjson _ _ sl_xonly f) (origin_json f)) E _)|]. constructor; [exact ((seq_bytes_json f sk_propkey _ (propkey_json f)) E _)|]. constructor; [exact ((seq_bytes_json f sk_key _ (key_json f)) E _)|]. constructor.
Qed.
Lemma output0_sound f : sound f typed_output0 c_output0.
Proof.
  intros v x E. cbn [c_de c_output0] in E. unfold de_output0 in E.
  destruct (struct_fields output0_fields v) as [l|]; [|discriminate].
  match type of E with match ?t with _ => _ end = _ => destruct t as [a0|] eqn:E0; [|discriminate] end.
  match type of E with match ?t with _ => _ end = _ => destruct t as [a1|] eqn:E1; [|discriminate] end.
  match type of E with match ?t with _ => _ end = _ => destruct t as [a2|] eqn:E2; [|discriminate] end.
  match type of E with match ?t with _ => _ end = _ => destruct t as [a3|] eqn:E3; [|discriminate] end.
  match type of E with match ?t with _ => _ end = _ => destruct t as [a4|] eqn:E4; [|discriminate] end.
  match type of E with match ?t with _ => _ end = _ => destruct t as [a5|] eqn:E5; [|discriminate] end.
  match type of E with match ?t with _ => _ end = _ => destruct t as [a6|] eqn:E6; [|discriminate] end.
  match type of E with match ?t with _ => _ end = _ => destruct t as [a7|] eqn:E7; [|discriminate] end.
  injection E as <-. constructor; cbn [o0_redeem_script o0_witness_script o0_bip32_derivation o0_tap_internal_key o0_tap_tree o0_tap_key_origins o0_proprietary o0_unknown].
  - exact (opt_field_sound f _ _ _ _ _ (fsound _ _ sl_script f) E0).
  - exact (opt_field_sound f _ _ _ _ _ (fsound _ _ sl_script f) E1).
  - exact (req_field_sound f _ _ _ _ _ (as_seq_sound f bkey _ _ _ _ bkey_inj (fsound _ _ sl_secp f) (keysource_sound f)) E2).
  - exact (opt_field_sound f _ _ _ _ _ (fsound _ _ sl_xonly f) E3).
  - exact (opt_field_sound f _ _ _ _ _ (sl_tap_tree_typed f) E4).
  - exact (req_field_sound f _ _ _ _ _ (as_seq_sound f bkey _ _ _ _ bkey_inj (fsound _ _ sl_xonly f) (origin_sound f)) E5).
  - exact (req_field_sound f _ _ _ _ _ (seq_bytes_sound f sk_propkey _ _ sk_propkey_inj (any_sound f _)) E6).
  - exact (req_field_sound f _ _ _ _ _ (seq_bytes_sound f sk_key _ _ sk_key_inj (any_sound f _)) E7).
Qed.
Lemma output0_back f x : typed_output0 x -> exists y, de_output0 f (ser_output0 f x) = Some y /\ output0_eq x y.
Proof.
  intros T.
  destruct (tap_tree_back f (o0_tap_tree x) (tyo0_tap_tree _ T)) as (o & Ho & Eo).
  exists (set_o0_tap_tree o x). split; [|split; [symmetry; exact Eo|now destruct x]].
  unfold ser_output0, set_o0_tap_tree. apply output0_vals.
  - exact (opt_back f _ _ (fback _ _ sl_script f) (fsome _ _ sl_script f) _ (tyo0_redeem_script _ T)).
  - exact (opt_back f _ _ (fback _ _ sl_script f) (fsome _ _ sl_script f) _ (tyo0_witness_script _ T)).
  - exact ((as_seq_back f bkey _ _ _ _ bkey_inj (fback _ _ sl_secp f) (keysource_back f)) _ (tyo0_bip32_derivation _ T)).
  - exact (opt_back f _ _ (fback _ _ sl_xonly f) (fsome _ _ sl_xonly f) _ (tyo0_tap_internal_key _ T)).
  - exact Ho.
  - exact ((as_seq_back f bkey _ _ _ _ bkey_inj (fback _ _ sl_xonly f) (origin_back f)) _ (tyo0_tap_key_origins _ T)).
  - exact ((seq_bytes_back f sk_propkey _ _ sk_propkey_inj (propkey_back f)) _ (tyo0_proprietary _ T)).
  - exact ((seq_bytes_back f sk_key _ _ sk_key_inj (key_back f)) _ (tyo0_unknown _ T)).
Qed.
Lemma psbt0_vals f v0 v1 v2 v3 v4 v5 v6 a0 a1 a2 a3 a4 a5 a6 :
  c_de xc_tx f v0 = Some a0 ->
  c_de c_u32 f v1 = Some a1 ->
  c_de (c_map sk_xpub xc_xpub c_keysource) f v2 = Some a2 ->
  c_de (c_seq_byte_values sk_propkey c_propkey) f v3 = Some a3 ->
  c_de (c_seq_byte_values sk_key c_key) f v4 = Some a4 ->
  c_de (c_vec c_input0) f v5 = Some a5 ->
  c_de (c_vec c_output0) f v6 = Some a6 ->
  de_psbt0 f (ser_struct ([(str "unsigned_tx", v0); (str "version", v1); (str "xpub", v2); (str "proprietary", v3); (str "unknown", v4); (str "inputs", v5); (str "outputs", v6)])) = Some (Psbt0 a0 a1 a2 a3 a4 a5 a6).
Proof.
  intros H0 H1 H2 H3 H4 H5 H6.
  unfold de_psbt0, psbt0_fields, sp_req_field, sp_opt_field, sp_fields, req_field, opt_field in *.
  field_step. lookup_step. rewrite H0. lookup_step. rewrite H1. lookup_step. rewrite H2. lookup_step. rewrite H3. lookup_step. rewrite H4. lookup_step. rewrite H5. lookup_step. rewrite H6. reflexivity.
Qed.
Lemma psbt0_vals_inv f v0 v1 v2 v3 v4 v5 v6 x :
  de_psbt0 f (ser_struct ([(str "unsigned_tx", v0); (str "version", v1); (str "xpub", v2); (str "proprietary", v3); (str "unknown", v4); (str "inputs", v5); (str "outputs", v6)])) = Some x ->
  c_de xc_tx f v0 = Some (p0_unsigned_tx x) /\
  c_de c_u32 f v1 = Some (p0_version x) /\
  c_de (c_map sk_xpub xc_xpub c_keysource) f v2 = Some (p0_xpub x) /\
  c_de (c_seq_byte_values sk_propkey c_propkey) f v3 = Some (p0_proprietary x) /\
  c_de (c_seq_byte_values sk_key c_key) f v4 = Some (p0_unknown x) /\
  c_de (c_vec c_input0) f v5 = Some (p0_inputs x) /\
  c_de (c_vec c_output0) f v6 = Some (p0_outputs x).
Proof.
  unfold de_psbt0, psbt0_fields, sp_req_field, sp_opt_field, sp_fields, req_field, opt_field.
  field_step. lookup_step. destruct (c_de xc_tx f v0) as [a0|]; [|discriminate]. lookup_step. destruct (c_de c_u32 f v1) as [a1|]; [|discriminate]. lookup_step. destruct (c_de (c_map sk_xpub xc_xpub c_keysource) f v2) as [a2|]; [|discriminate]. lookup_step. destruct (c_de (c_seq_byte_values sk_propkey c_propkey) f v3) as [a3|]; [|discriminate]. lookup_step. destruct (c_de (c_seq_byte_values sk_key c_key) f v4) as [a4|]; [|discriminate]. lookup_step. destruct (c_de (c_vec c_input0) f v5) as [a5|]; [|discriminate]. lookup_step. destruct (c_de (c_vec c_output0) f v6) as [a6|]; [|discriminate]. intros E; injection E as <-; auto 40.
Qed.
Definition build_psbt0 (f : fmt) (l : list (bytes * sval)) : option psbt0 :=
  a0 <~ req_field xc_tx f (str "unsigned_tx") l ;;
  a1 <~ req_field c_u32 f (str "version") l ;;
  a2 <~ req_field (c_map sk_xpub xc_xpub c_keysource) f (str "xpub") l ;;
  a3 <~ req_field (c_seq_byte_values sk_propkey c_propkey) f (str "proprietary") l ;;
  a4 <~ req_field (c_seq_byte_values sk_key c_key) f (str "unknown") l ;;
  a5 <~ req_field (c_vec c_input0) f (str "inputs") l ;;
  a6 <~ req_field (c_vec c_output0) f (str "outputs") l ;;
  Some (Psbt0 a0 a1 a2 a3 a4 a5 a6).
Lemma psbt0_lookup : lookup psbt0_fields psbt0_members de_psbt0.
Proof.
  exists build_psbt0. split; [reflexivity|split; [|split; [unfold psbt0_fields, psbt0_members, sp_fields; reflexivity|]]].
  - unfold psbt0_members. intros f l l' H. unfold build_psbt0, sp_req_field, sp_opt_field. rewrite (req_agree _ _ f (str "unsigned_tx") l l' H eq_refl). rewrite (req_agree _ _ f (str "version") l l' H eq_refl). rewrite (req_agree _ _ f (str "xpub") l l' H eq_refl). rewrite (req_agree _ _ f (str "proprietary") l l' H eq_refl). rewrite (req_agree _ _ f (str "unknown") l l' H eq_refl). rewrite (req_agree _ _ f (str "inputs") l l' H eq_refl). rewrite (req_agree _ _ f (str "outputs") l l' H eq_refl). reflexivity.
  - unfold psbt0_members. intros f l x E. unfold build_psbt0, sp_req_field, sp_opt_field in E. match type of E with match ?t with _ => _ end = _ => destruct t as [a0|] eqn:E0; [|discriminate] end. match type of E with match ?t with _ => _ end = _ => destruct t as [a1|] eqn:E1; [|discriminate] end. match type of E with match ?t with _ => _ end = _ => destruct t as [a2|] eqn:E2; [|discriminate] end. match type of E with match ?t with _ => _ end = _ => destruct t as [a3|] eqn:E3; [|discriminate] end. match type of E with match ?t with _ => _ end = _ => destruct t as [a4|] eqn:E4; [|discriminate] end. match type of E with match ?t with _ => _ end = _ => destruct t as [a5|] eqn:E5; [|discriminate] end. match type of E with match ?t with _ => _ end = _ => destruct t as [a6|] eqn:E6; [|discriminate] end. intros m Hm. cbn [In] in Hm. repeat (destruct Hm as [Hm|Hm]; [|]); try (injection Hm as <-); try contradiction; first [discriminate | eapply req_present; eassumption].
Qed.
Lemma psbt0_json f : json f c_psbt0.
Proof.
  intros E x. apply struct_json. unfold sp_fields.
  constructor; [exact ((fjson _ _ sl_tx f) E _)|]. constructor; [exact ((num_json f U32) E _)|]. constructor; [exact ((map_json f sk_xpub _ _ sl_xpub_text (keysource_json f)) E _)|]. constructor; [exact ((seq_bytes_json f sk_propkey _ (propkey_json f)) E _)|]. constructor; [exact ((seq_bytes_json f sk_key _ (key_json f)) E _)|]. constructor; [exact ((vec_json f _ (input0_json f)) E _)|]. constructor; [exact ((vec_json f _ (output0_json f)) E _)|]. constructor.
Qed.
Lemma psbt0_sound f : sound f typed_psbt0 c_psbt0.
Proof.
  intros v x E. cbn [c_de c_psbt0] in E. unfold de_psbt0 in E.
  destruct (struct_fields psbt0_fields v) as [l|]; [|discriminate].
  match type of E with match ?t with _ => _ end = _ => destruct t as [a0|] eqn:E0; [|discriminate] end.
  match type of E with match ?t with _ => _ end = _ => destruct t as [a1|] eqn:E1; [|discriminate] end.
  match type of E with match ?t with _ => _ end = _ => destruct t as [a2|] eqn:E2; [|discriminate] end.
  match type of E with match ?t with _ => _ end = _ => destruct t as [a3|] eqn:E3; [|discriminate] end.
  match type of E with match ?t with _ => _ end = _ => destruct t as [a4|] eqn:E4; [|discriminate] end.
  match type of E with match ?t with _ => _ end = _ => destruct t as [a5|] eqn:E5; [|discriminate] end.
  match type of E with match ?t with _ => _ end = _ => destruct t as [a6|] eqn:E6; [|discriminate] end.
  injection E as <-. constructor; cbn [p0_unsigned_tx p0_version p0_xpub p0_proprietary p0_unknown p0_inputs p0_outputs].
  - exact (req_field_sound f _ _ _ _ _ (fsound _ _ sl_tx f) E0).
  - exact (req_field_sound f _ _ _ _ _ (num_sound f U32) E1).
  - exact (req_field_sound f _ _ _ _ _ (map_sound f sk_xpub _ _ _ _ sk_xpub_inj (fsound _ _ sl_xpub f) (keysource_sound f)) E2).
  - exact (req_field_sound f _ _ _ _ _ (seq_bytes_sound f sk_propkey _ _ sk_propkey_inj (any_sound f _)) E3).
  - exact (req_field_sound f _ _ _ _ _ (seq_bytes_sound f sk_key _ _ sk_key_inj (any_sound f _)) E4).
  - exact (req_field_sound f _ _ _ _ _ (vec_sound f _ _ (input0_sound f)) E5).
  - exact (req_field_sound f _ _ _ _ _ (vec_sound f _ _ (output0_sound f)) E6).
Qed.

(** ** Whole PSBTs *)
Lemma de_all_rel {A B C0} (R : A -> C0 -> Prop) (ser : A -> B) (de : B -> option C0) l :
  Forall (fun a => exists b, de (ser a) = Some b /\ R a b) l ->
  exists l', de_all de (map ser l) = Some l' /\ Forall2 R l l'.
Proof.
  induction 1 as [|a l (b & H & Hr) _ (l' & IH & F)]; [exists []; split; [reflexivity|constructor]|].
  exists (b :: l'). split; [|now constructor]. cbn. now rewrite H, IH.
Qed.

Lemma psbt_back f p : typed_psbt p -> (f_hr f = true -> f_lends f = true \/ Forall no_preimages (p_inputs p)) ->
  exists q, de_psbt f (ser_psbt f p) = Some q /\ psbt_eq p q.
Proof.
  intros T L.
  assert (HI : c_de (c_vec c_input) f (c_ser (c_vec c_input) f (p_inputs p)) = Some (p_inputs p)).
  { cbn [c_vec c_de c_ser]. apply de_all_map. pose proof (typ_inputs _ T) as Hi. rewrite Forall_forall in Hi |- *.
    intros i Ii. apply input_back; [now apply Hi|]. intros E. destruct (L E) as [?|F]; [now left|right].
    rewrite Forall_forall in F. now apply F. }
  destruct (de_all_rel output_eq (ser_output f) (de_output f) (p_outputs p)) as (os & Ho & Fo).
  { eapply Forall_impl; [|exact (typ_outputs _ T)]. intros o. apply output_back. }
  exists (Psbt (p_global p) (p_inputs p) os). split; [|split; [reflexivity|split; [reflexivity|exact Fo]]].
  unfold ser_psbt. apply psbt_vals; [exact (global_back f _ (typ_global _ T))|exact HI|exact Ho].
Qed.

Lemma psbt0_back f p : typed_psbt0 p -> (f_hr f = true -> f_lends f = true \/ Forall no_preimages0 (p0_inputs p)) ->
  exists q, de_psbt0 f (ser_psbt0 f p) = Some q /\ psbt0_eq p q.
Proof.
  intros T L.
  assert (HI : c_de (c_vec c_input0) f (c_ser (c_vec c_input0) f (p0_inputs p)) = Some (p0_inputs p)).
  { cbn [c_vec c_de c_ser]. apply de_all_map. pose proof (typ0_inputs _ T) as Hi. rewrite Forall_forall in Hi |- *.
    intros i Ii. apply input0_back; [now apply Hi|]. intros E. destruct (L E) as [?|F]; [now left|right].
    rewrite Forall_forall in F. now apply F. }
  destruct (de_all_rel output0_eq (ser_output0 f) (de_output0 f) (p0_outputs p)) as (os & Ho & Fo).
  { eapply Forall_impl; [|exact (typ0_outputs _ T)]. intros o. apply output0_back. }
  exists (set_p0_outputs os p). split; [|split; [now destruct p|exact Fo]].
  unfold ser_psbt0, set_p0_outputs. apply psbt0_vals.
  - exact (fback _ _ sl_tx f _ (typ0_unsigned_tx _ T)).
  - exact (num_back f U32 _ (typ0_version _ T)).
  - exact (map_back f sk_xpub _ _ _ _ sk_xpub_inj (fback _ _ sl_xpub f) (keysource_back f) _ (typ0_xpub _ T)).
  - exact (seq_bytes_back f sk_propkey _ _ sk_propkey_inj (propkey_back f) _ (typ0_proprietary _ T)).
  - exact (seq_bytes_back f sk_key _ _ sk_key_inj (key_back f) _ (typ0_unknown _ T)).
  - exact HI.
  - exact Ho.
Qed.

(** Without lent strings preimages cannot be read. *)
Lemma byte_values_owned {K} f (sk : K -> list N) (k : codec K) m a :
  f_hr f = true -> f_lends f = false ->
  c_de (c_byte_values sk k) f (c_ser (c_byte_values sk k) f m) = Some a -> m = [].
Proof.
  intros H L E. unfold c_byte_values in E. cbn [c_ser c_de] in E. rewrite H in E. unfold borrowed_str in E. rewrite L in E.
  destruct m as [|[x y] m]; [reflexivity|]. cbn in E. destruct (c_de k f (c_ser k f x)); discriminate.
Qed.
Lemma input_owned f i j : f_hr f = true -> f_lends f = false -> de_input f (ser_input f i) = Some j -> no_preimages i.
Proof.
  intros H L E. unfold ser_input in E. apply input_vals_inv in E.
  destruct E as (_ & _ & _ & _ & _ & _ & _ & _ & _ & _ & _ & _ & _ & _ & E1 & E2 & E3 & E4 & _).
  repeat split; [exact (byte_values_owned f _ _ _ _ H L E1)|exact (byte_values_owned f _ _ _ _ H L E2)
    |exact (byte_values_owned f _ _ _ _ H L E3)|exact (byte_values_owned f _ _ _ _ H L E4)].
Qed.
Lemma input0_owned f i j : f_hr f = true -> f_lends f = false -> de_input0 f (ser_input0 f i) = Some j -> no_preimages0 i.
Proof.
  intros H L E. unfold ser_input0 in E. apply input0_vals_inv in E.
  destruct E as (_ & _ & _ & _ & _ & _ & _ & _ & _ & E1 & E2 & E3 & E4 & _).
  repeat split; [exact (byte_values_owned f _ _ _ _ H L E1)|exact (byte_values_owned f _ _ _ _ H L E2)
    |exact (byte_values_owned f _ _ _ _ H L E3)|exact (byte_values_owned f _ _ _ _ H L E4)].
Qed.
Lemma de_all_each {A B C0} (ser : A -> B) (de : B -> option C0) l : forall r,
  de_all de (map ser l) = Some r -> Forall (fun a => exists b, de (ser a) = Some b) l.
Proof.
  induction l as [|a l IH]; intros r E; [constructor|]. cbn in E.
  destruct (de (ser a)) as [b|] eqn:D; [|discriminate]. destruct (de_all de (map ser l)) eqn:G; [|discriminate].
  constructor; [now exists b|]. eapply IH. reflexivity.
Qed.
Lemma psbt_owned f p q : f_hr f = true -> f_lends f = false -> de_psbt f (ser_psbt f p) = Some q -> Forall no_preimages (p_inputs p).
Proof.
  intros H L E. unfold ser_psbt in E. apply psbt_vals_inv in E as (_ & E & _).
  apply de_all_each in E. eapply Forall_impl; [|exact E]. intros i (j & Hj). exact (input_owned f i j H L Hj).
Qed.
Lemma psbt0_owned f p q : f_hr f = true -> f_lends f = false -> de_psbt0 f (ser_psbt0 f p) = Some q -> Forall no_preimages0 (p0_inputs p).
Proof.
  intros H L E. unfold ser_psbt0 in E. apply psbt0_vals_inv in E as (_ & _ & _ & _ & _ & E & _).
  apply de_all_each in E. eapply Forall_impl; [|exact E]. intros i (j & Hj). exact (input0_owned f i j H L Hj).
Qed.

End Facts.

(** ** Fields of structs *)
Fixpoint ids (names : list bytes) (l : list (sval * sval)) : option (list (bytes * sval)) :=
  match l with
  | [] => Some []
  | (k, v) :: r =>
      match field_id names k with
      | None => None
      | Some None => ids names r
      | Some (Some n) => match ids names r with Some e => Some ((n, v) :: e) | None => None end
      end
  end.
Lemma field_none n l : field n l = None <-> ~ In n (map fst l).
Proof.
  induction l as [|[m v] l IH]; cbn; [tauto|]. destruct (bytes_eqb n m) eqn:E.
  - apply bytes_eqb_eq in E. subst. split; [discriminate|]. intros H. exfalso. apply H. now left.
  - apply bytes_eqb_neq in E. rewrite IH. split; [intros H [G|G]; [congruence|tauto]|tauto].
Qed.
Lemma field_in n v l : NoDup (map fst l) -> (field n l = Some v <-> In (n, v) l).
Proof.
  induction l as [|[m w] l IH]; cbn; intros D; [split; [discriminate|tauto]|]. inversion D as [|? ? D1 D2]; subst.
  destruct (bytes_eqb n m) eqn:E.
  - apply bytes_eqb_eq in E. subst. split; [intros [= ->]; now left|].
    intros [[= ->]|G]; [reflexivity|]. exfalso. apply D1. apply in_map_iff. now exists (m, v).
  - apply bytes_eqb_neq in E. rewrite (IH D2). split; [now right|]. intros [[= -> ->]|G]; [congruence|exact G].
Qed.
Lemma field_perm n l l' : NoDup (map fst l) -> Permutation l l' -> field n l = field n l'.
Proof.
  intros D P. assert (D' : NoDup (map fst l')) by (eapply Permutation_NoDup; [apply Permutation_map; exact P|exact D]).
  destruct (field n l) as [v|] eqn:E.
  - apply (field_in n v l D) in E. symmetry. apply (field_in n v l' D'). eapply Permutation_in; eauto.
  - symmetry. apply field_none. apply field_none in E. intros G. apply E.
    eapply Permutation_in; [apply Permutation_map, Permutation_sym, P|exact G].
Qed.
Lemma collect_some names l : forall acc r, NoDup (map fst acc) ->
  (collect names l acc = Some r <-> exists e, ids names l = Some e /\ NoDup (map fst (rev e ++ acc)) /\ r = rev e ++ acc).
Proof.
  induction l as [|[k v] l IH]; intros acc r D; cbn [collect ids].
  - split; [intros [= <-]; exists []; auto|]. intros (e & [= <-] & _ & ->). reflexivity.
  - destruct (field_id names k) as [[n|]|].
    + destruct (field n acc) as [w|] eqn:E.
      * split; [discriminate|]. intros (e & He & Hd & _). destruct (ids names l) as [e0|]; [|discriminate].
        injection He as <-. cbn [rev] in Hd. exfalso.
        assert (G : ~ In n (map fst acc)).
        { rewrite <- app_assoc, map_app in Hd. cbn [app map fst] in Hd.
          apply NoDup_remove_2 in Hd. intros G. apply Hd. apply in_app_iff. now right. }
        apply field_none in G. congruence.
      * apply field_none in E. rewrite IH by (cbn; now constructor). split.
        -- intros (e & -> & Hd & ->). exists ((n, v) :: e). cbn [rev]. rewrite <- app_assoc. auto.
        -- intros (e & He & Hd & ->). destruct (ids names l) as [e0|]; [|discriminate]. injection He as <-.
           exists e0. cbn [rev] in *. rewrite <- app_assoc in *. auto.
    + apply IH, D.
    + split; [discriminate|]. intros (e & He & _). discriminate.
Qed.
Lemma ids_perm names l l' : Permutation l l' -> forall e, ids names l = Some e -> exists e', ids names l' = Some e' /\ Permutation e e'.
Proof.
  induction 1 as [|[k v] l l' P IH|[k v] [k' v'] l|l1 l2 l3 P1 IH1 P2 IH2]; intros e E.
  - exists e. split; [exact E|reflexivity].
  - cbn [ids] in *. destruct (field_id names k) as [[n|]|]; [|eauto|discriminate].
    destruct (ids names l) as [e0|]; [|discriminate]. injection E as <-. destruct (IH _ eq_refl) as (e' & -> & Pe).
    exists ((n, v) :: e'). split; [reflexivity|now constructor].
  - cbn [ids] in *. destruct (field_id names k) as [[n|]|], (field_id names k') as [[n'|]|], (ids names l) as [e0|]; try discriminate;
      injection E as <-; eexists; (split; [reflexivity|]); try reflexivity. apply perm_swap.
  - destruct (IH1 _ E) as (e1 & E1 & Q1). destruct (IH2 _ E1) as (e2 & E2 & Q2). exists e2. split; [exact E2|now transitivity e1].
Qed.
Lemma collect_perm names l l' r : Permutation l l' -> collect names l [] = Some r ->
  exists r', collect names l' [] = Some r' /\ forall n, field n r = field n r'.
Proof.
  intros P E. apply collect_some in E as (e & He & Hd & ->); [|constructor]. rewrite app_nil_r in *.
  destruct (ids_perm names l l' P e He) as (e' & He' & Pe).
  assert (Pr : Permutation (rev e) (rev e')).
  { transitivity e; [apply Permutation_sym, Permutation_rev|]. transitivity e'; [exact Pe|apply Permutation_rev]. }
  exists (rev e'). split; [|intros n; now apply field_perm].
  apply collect_some; [constructor|]. exists e'. rewrite app_nil_r. split; [exact He'|]. split; [|reflexivity].
  eapply Permutation_NoDup; [apply Permutation_map; exact Pr|exact Hd].
Qed.
Lemma collect_skip names l1 k v l2 : field_id names k = Some None -> forall acc,
  collect names (l1 ++ (k, v) :: l2) acc = collect names (l1 ++ l2) acc.
Proof.
  intros H. induction l1 as [|[k1 v1] l1 IH]; intros acc; cbn [app collect]; [now rewrite H|].
  destruct (field_id names k1) as [[n|]|]; [|apply IH|reflexivity]. destruct (field n acc); [reflexivity|apply IH].
Qed.
Lemma ids_in names k v n l : forall e, field_id names k = Some (Some n) -> In (k, v) l -> ids names l = Some e -> In (n, v) e.
Proof.
  induction l as [|[k1 v1] l IH]; intros e Hk Hi E; [destruct Hi|]. cbn [ids] in E. destruct Hi as [[= -> ->]|Hi].
  - rewrite Hk in E. destruct (ids names l); [|discriminate]. injection E as <-. now left.
  - destruct (field_id names k1) as [[m|]|]; [|eauto|discriminate]. destruct (ids names l); [|discriminate]. injection E as <-. right. eauto.
Qed.
Lemma ids_origin names n v l : forall e, ids names l = Some e -> In (n, v) e -> exists k, In (k, v) l /\ field_id names k = Some (Some n).
Proof.
  induction l as [|[k1 v1] l IH]; intros e E Hi; cbn [ids] in E; [injection E as <-; destruct Hi|].
  destruct (field_id names k1) as [[m|]|] eqn:F; [| |discriminate].
  - destruct (ids names l) as [e0|]; [|discriminate]. injection E as <-. destruct Hi as [[= -> ->]|Hi].
    + exists k1. split; [now left|exact F].
    + destruct (IH _ eq_refl Hi) as (k & A & B). exists k. split; [now right|exact B].
  - destruct (IH _ E Hi) as (k & A & B). exists k. split; [now right|exact B].
Qed.
Lemma ids_app names a b : ids names (a ++ b) = match ids names a, ids names b with Some x, Some y => Some (x ++ y) | _, _ => None end.
Proof.
  induction a as [|[k v] a IH]; cbn [app ids]; [now destruct (ids names b)|].
  destruct (field_id names k) as [[n|]|]; [|exact IH|reflexivity]. rewrite IH.
  destruct (ids names a), (ids names b); reflexivity.
Qed.

(** Consequences for every struct. *)
Section Lookup.
Context {A : Type} (names : list bytes) (members : list (string * bool)) (de : fmt -> sval -> option A).
Hypothesis L : lookup names members de.

Lemma agree_refl l l' : (forall n, field n l = field n l') -> agree members l l'.
Proof. intros H n. left. apply H. Qed.

Lemma lookup_perm f l l' : Permutation l l' -> de f (SMap l) = de f (SMap l').
Proof.
  destruct L as (build & D & G & _). intros P. rewrite !D. cbn [struct_fields].
  destruct (collect names l []) as [r|] eqn:E.
  - destruct (collect_perm names l l' r P E) as (r' & -> & F). apply G, agree_refl, F.
  - destruct (collect names l' []) as [r'|] eqn:E'; [|reflexivity].
    destruct (collect_perm names l' l r' (Permutation_sym P) E') as (r & E2 & _). congruence.
Qed.
Lemma in_names s : In s names <-> In s (map (fun m => str (fst m)) members).
Proof. destruct L as (_ & _ & _ & -> & _). tauto. Qed.
Lemma field_id_str s : field_id names (SStr s) = Some (if existsb (bytes_eqb s) names then Some s else None).
Proof. reflexivity. Qed.
Lemma known s : In s names -> field_id names (SStr s) = Some (Some s).
Proof.
  intros H. cbn. replace (existsb (bytes_eqb s) names) with true; [reflexivity|]. symmetry. apply existsb_exists.
  exists s. split; [exact H|apply bytes_eqb_refl].
Qed.
Lemma unknown s : ~ In s names -> field_id names (SStr s) = Some None.
Proof.
  intros H. cbn. destruct (existsb (bytes_eqb s) names) eqn:E; [|reflexivity]. apply existsb_exists in E as (x & Hx & E).
  apply bytes_eqb_eq in E. subst. contradiction.
Qed.
Lemma lookup_unknown f l1 l2 s v : ~ In s (map (fun m => str (fst m)) members) ->
  de f (SMap (l1 ++ (SStr s, v) :: l2)) = de f (SMap (l1 ++ l2)).
Proof.
  intros H. rewrite <- in_names in H. destruct L as (build & D & _). rewrite !D. cbn [struct_fields].
  rewrite collect_skip; [reflexivity|]. now apply unknown.
Qed.
Lemma lookup_twice f l1 l2 l3 s v w : In s (map (fun m => str (fst m)) members) ->
  de f (SMap (l1 ++ (SStr s, v) :: l2 ++ (SStr s, w) :: l3)) = None.
Proof.
  intros H. rewrite <- in_names in H. destruct L as (build & D & _). rewrite D. cbn [struct_fields].
  destruct (collect names _ []) as [r|] eqn:E; [exfalso|reflexivity].
  apply collect_some in E as (e & He & Hd & _); [|constructor]. rewrite app_nil_r in Hd.
  pose proof (known s H) as Hk.
  rewrite ids_app in He. destruct (ids names l1) as [e1|]; [|discriminate].
  cbn [ids] in He. rewrite Hk in He. rewrite ids_app in He. destruct (ids names l2) as [e2|]; [|discriminate].
  cbn [ids] in He. rewrite Hk in He. destruct (ids names l3) as [e3|]; [|discriminate]. injection He as <-.
  assert (N : NoDup (map fst (e1 ++ (s, v) :: e2 ++ (s, w) :: e3))).
  { eapply Permutation_NoDup; [apply Permutation_map, Permutation_sym, Permutation_rev|exact Hd]. }
  rewrite map_app in N. cbn [map fst] in N. apply NoDup_remove_2 in N. apply N.
  apply in_app_iff. right. rewrite map_app. apply in_app_iff. right. now left.
Qed.
Lemma lookup_missing f l m x : In (m, false) members -> de f (SMap l) = Some x ->
  exists k v, In (k, v) l /\ field_id names k = Some (Some (str m)).
Proof.
  intros H E. destruct L as (build & D & _ & _ & R). rewrite D in E. cbn [struct_fields] in E.
  destruct (collect names l []) as [r|] eqn:G; [|discriminate].
  pose proof (R f r x E m H) as F. apply collect_some in G as (e & He & Hd & ->); [|constructor].
  rewrite app_nil_r in *. destruct (field (str m) (rev e)) as [v|] eqn:Fv; [|congruence].
  apply field_in in Fv; [|exact Hd]. apply in_rev in Fv. destruct (ids_origin names _ _ l e He Fv) as (k & A1 & A2).
  exists k, v. auto.
Qed.
Lemma lookup_absent f l m : In (m, true) members ->
  (forall k v, In (k, v) l -> field_id names k <> Some (Some (str m))) ->
  de f (SMap l) = de f (SMap ((SStr (str m), SNull) :: l)).
Proof.
  intros H Ha. destruct L as (build & D & G & NM & _). rewrite !D. cbn [struct_fields collect].
  assert (Hin : In (str m) names) by (rewrite in_names; apply in_map_iff; now exists (m, true)).
  rewrite (known _ Hin). cbn [field].
  assert (K : forall e, ids names l = Some e -> ~ In (str m) (map fst e)).
  { intros e He Hi. apply in_map_iff in Hi as ([n v] & E & Hi). cbn in E. subst n.
    destruct (ids_origin names _ _ l e He Hi) as (k & A1 & A2). exact (Ha k v A1 A2). }
  destruct (collect names l []) as [r|] eqn:E.
  - apply collect_some in E as (e & He & Hd & ->); [|constructor]. rewrite app_nil_r in *.
    assert (E2 : collect names l [(str m, SNull)] = Some (rev e ++ [(str m, SNull)])).
    { apply collect_some; [cbn; constructor; [tauto|constructor]|]. exists e. split; [exact He|]. split; [|reflexivity].
      rewrite map_app. cbn [map fst].
      assert (NoDup (str m :: map fst (rev e))).
      { constructor; [|exact Hd]. rewrite map_rev. intros Hi. apply in_rev in Hi. exact (K e He Hi). }
      eapply Permutation_NoDup; [|eassumption]. apply Permutation_cons_append. }
    rewrite E2. apply G. intros n.
    assert (Fa : field n (rev e ++ [(str m, SNull)]) = match field n (rev e) with Some v => Some v | None => if bytes_eqb n (str m) then Some SNull else None end).
    { generalize (rev e). induction l0 as [|[a b] l0 IH]; cbn; [reflexivity|]. destruct (bytes_eqb n a); [reflexivity|exact IH]. }
    destruct (bytes_eqb n (str m)) eqn:B.
    + apply bytes_eqb_eq in B. subst n. right. split; [|split].
      * apply existsb_exists. exists (m, true). split; [exact H|]. cbn. now rewrite bytes_eqb_refl.
      * apply field_none. rewrite map_rev. intros Hi. apply in_rev in Hi. exact (K e He Hi).
      * rewrite Fa. destruct (field (str m) (rev e)) as [v|] eqn:Fv; [|reflexivity]. exfalso.
        apply field_in in Fv; [|exact Hd]. apply (K e He). apply in_map_iff. exists (str m, v). split; [reflexivity|].
        now apply in_rev.
    + left. rewrite Fa. now destruct (field n (rev e)).
  - destruct (collect names l [(str m, SNull)]) as [r|] eqn:E2; [exfalso|reflexivity].
    apply collect_some in E2 as (e & He & Hd & ->); [|cbn; constructor; [tauto|constructor]].
    assert (E3 : collect names l [] = Some (rev e)); [|congruence].
    apply collect_some; [constructor|]. exists e. rewrite app_nil_r. split; [exact He|]. split; [|reflexivity].
    rewrite map_app in Hd. cbn [map fst] in Hd. apply NoDup_remove_1 in Hd. now rewrite app_nil_r in Hd.
Qed.
End Lookup.

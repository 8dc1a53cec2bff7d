(** Generic reasoning about the maps of a PSBT.

    A map is a record of independent fields.  Every pair is handed to one field,
    chosen by its key type, and every field is serialized to pairs of its own key
    types.  All facts about maps follow from facts about single fields
    ([fspec], [fdup], [fcomm], [fraw]) by [frame_*]. *)
From Coq Require Import Permutation.
From Verif Require Import Base OMap Consensus ConsensusFacts Ext Raw RawFacts
  TapTree TapTreeFacts Serialize SerializeFacts MapCodec.
Local Open Scope N_scope.

(** Key type of a pair. *)
Definition ptype (p : pair) : byte := k_type (p_key p).

(** Well-formed maps. *)
Definition wf_map {K V} (sk : K -> list N) (wfk : K -> Prop) (wfv : V -> Prop) (m : list (K * V)) : Prop :=
  m_sorted sk m /\ Forall (fun kv => wfk (fst kv) /\ wfv (snd kv)) m.

(** Laws of one field: [types] are its key types. *)
Record fspec {A} (types : byte -> Prop) (upd : pair -> A -> res ierr A) (pairs : A -> list pair)
    (empty : A) (wf : A -> Prop) (norm : A -> A) : Prop := {
  fs_rt : forall a, wf a -> ins_all upd (pairs a) empty = Ok (norm a);
  fs_wf0 : wf empty;
  fs_wf : forall p a a', types (ptype p) -> wf_pair p -> wf a -> upd p a = Ok a' -> wf a';
  fs_np : forall p a, upd p a <> Panic;
  fs_pw : forall a, wf a -> Forall wf_pair (pairs a);
  fs_ty : forall a p, wf a -> In p (pairs a) -> types (ptype p);
  fs_nd : forall a, wf a -> NoDup (map p_key (pairs a))
}.

(** The field rejects a second pair with the same key. *)
Definition fdup {A} (types : byte -> Prop) (upd : pair -> A -> res ierr A) : Prop :=
  exists hask : key -> A -> Prop,
    (forall p a a', types (ptype p) -> upd p a = Ok a' -> hask (p_key p) a') /\
    (forall k p a a', types (ptype p) -> hask k a -> upd p a = Ok a' -> hask k a') /\
    (forall p a, types (ptype p) -> hask (p_key p) a -> is_ok (upd p a) = false).

(** Two accepted pairs may be swapped. *)
Definition fcomm {A} (types : byte -> Prop) (upd : pair -> A -> res ierr A) (wf : A -> Prop) : Prop :=
  forall p q a b c, types (ptype p) -> types (ptype q) -> wf a -> wf_pair p -> wf_pair q ->
    upd p a = Ok b -> upd q b = Ok c -> exists b', upd q a = Ok b' /\ upd p b' = Ok c.

(** The field keeps its pairs byte for byte. *)
Definition fraw {A} (types : byte -> Prop) (upd : pair -> A -> res ierr A) (pairs : A -> list pair) : Prop :=
  forall p a a', types (ptype p) -> upd p a = Ok a' -> Permutation (pairs a') (p :: pairs a).

Lemma filter_all {A} (P : A -> bool) l : (forall x, In x l -> P x = true) -> filter P l = l.
Proof.
  induction l as [|x l IH]; intros H; cbn; auto.
  rewrite (H x) by now left. f_equal. apply IH. intros y Hy. apply H. now right.
Qed.
Lemma filter_none {A} (P : A -> bool) l : (forall x, In x l -> P x = false) -> filter P l = [].
Proof.
  induction l as [|x l IH]; intros H; cbn; auto.
  rewrite (H x) by now left. apply IH. intros y Hy. apply H. now right.
Qed.
Lemma Permutation_filter {A} (P : A -> bool) l l' : Permutation l l' -> Permutation (filter P l) (filter P l').
Proof.
  induction 1; cbn; auto.
  - destruct (P x); auto.
  - destruct (P x), (P y); auto. apply perm_swap.
  - etransitivity; eauto.
Qed.
Lemma NoDup_app {A} (a b : list A) :
  NoDup a -> NoDup b -> (forall x, In x a -> ~ In x b) -> NoDup (a ++ b).
Proof.
  intros Ha Hb H. induction Ha as [|x a Hx Ha IH]; cbn; auto. constructor.
  - rewrite in_app_iff. intros [Hi|Hi]; [now apply Hx|]. apply (H x); [now left|exact Hi].
  - apply IH. intros y Hy. apply H. now right.
Qed.

Section Mem.
Context {K V : Type} (sk : K -> list N) (sk_inj : forall a b, sk a = sk b -> a = b).
Lemma m_mem_put_eq k (v : V) m : m_mem sk k (m_put sk k v m) = true.
Proof. apply (m_mem_in sk sk_inj). apply (m_put_keys sk sk_inj). auto. Qed.
Lemma m_mem_put_mono k k' (v : V) m : m_mem sk k' m = true -> m_mem sk k' (m_put sk k v m) = true.
Proof. intros H. apply (m_mem_in sk sk_inj). apply (m_put_keys sk sk_inj). right. now apply (m_mem_in sk sk_inj). Qed.
Lemma m_mem_put_false k k' (v : V) m : m_mem sk k' (m_put sk k v m) = false <-> k' <> k /\ m_mem sk k' m = false.
Proof.
  split.
  - intros H. split.
    + intros ->. rewrite m_mem_put_eq in H. discriminate.
    + destruct (m_mem sk k' m) eqn:E; auto. now rewrite m_mem_put_mono in H.
  - intros [H1 H2]. destruct (m_mem sk k' (m_put sk k v m)) eqn:E; auto.
    apply (m_mem_in sk sk_inj), (m_put_keys sk sk_inj) in E as [E|E]; [congruence|].
    apply (m_mem_in sk sk_inj) in E. congruence.
Qed.
End Mem.

Section InsAll.
Context {S E : Type}.
Lemma ins_all_map_err {E'} (g : E -> E') (ins : pair -> S -> res E S) l s :
  ins_all (fun p s => map_err g (ins p s)) l s = map_err g (ins_all ins l s).
Proof.
  revert s; induction l as [|p l IH]; intros s; cbn [ins_all]; [reflexivity|].
  destruct (ins p s); cbn [map_err bind]; auto.
Qed.
Lemma ins_all_nopanic (ins : pair -> S -> res E S) l s :
  (forall p a, ins p a <> Panic) -> ins_all ins l s <> Panic.
Proof.
  intros Hp. revert s; induction l as [|p l IH]; intros s; cbn [ins_all]; [discriminate|].
  pose proof (Hp p s). destruct (ins p s); cbn [bind]; congruence || apply IH.
Qed.

(** Accepted lists have distinct keys. *)
Lemma ins_all_nodup (types : byte -> Prop) (ins : pair -> S -> res ierr S) l s s' :
  fdup types ins -> Forall (fun p => types (ptype p)) l -> ins_all ins l s = Ok s' -> NoDup (map p_key l).
Proof.
  intros (hask & Hput & Hmono & Hrej) Hl H.
  assert (G : forall l s s', Forall (fun p => types (ptype p)) l -> ins_all ins l s = Ok s' ->
            forall k, hask k s -> ~ In k (map p_key l)).
  { clear l s s' Hl H. induction l as [|p l IH]; intros s s' Hl H k Hk; cbn; auto.
    apply Forall_cons_iff in Hl as [Hp Hl]. cbn [ins_all] in H. binds H. intros [E0|Hin].
    - subst k. apply Hrej in Hk; auto. rewrite Hx in Hk. discriminate.
    - exact (IH _ _ Hl H k (Hmono _ _ _ _ Hp Hk Hx) Hin). }
  revert s H; induction Hl as [|p l Hp Hl IH]; intros s H; cbn; constructor.
  - cbn [ins_all] in H. binds H. eapply G; eauto.
  - cbn [ins_all] in H. binds H. eauto.
Qed.

(** Accepted lists may be permuted. *)
Lemma ins_all_perm (types : byte -> Prop) (ins : pair -> S -> res ierr S) (wf : S -> Prop) l l' :
  fcomm types ins wf ->
  (forall p a a', types (ptype p) -> wf_pair p -> wf a -> ins p a = Ok a' -> wf a') ->
  Permutation l l' -> Forall (fun p => types (ptype p)) l -> Forall wf_pair l ->
  forall s s', wf s -> ins_all ins l s = Ok s' -> ins_all ins l' s = Ok s'.
Proof.
  intros Hc Hwf HP. induction HP as [|p l l' HP IH|p q l|l l' l'' HP1 IH1 HP2 IH2]; intros Ht Hl s s' Hs H.
  - exact H.
  - apply Forall_cons_iff in Ht as [Hpt Ht]. apply Forall_cons_iff in Hl as [Hpl Hl].
    cbn [ins_all] in *. binds H. rewrite Hx. cbn [bind]. apply IH; eauto.
  - apply Forall_cons_iff in Ht as [Hqt Ht]. apply Forall_cons_iff in Ht as [Hpt Ht].
    apply Forall_cons_iff in Hl as [Hql Hl]. apply Forall_cons_iff in Hl as [Hpl Hl].
    cbn [ins_all] in H. binds H.
    destruct (Hc q p s x x0) as (b' & E1 & E2); auto.
    cbn [ins_all]. rewrite E1. cbn [bind]. rewrite E2. cbn [bind]. exact H.
  - apply IH2; auto.
    + eapply Permutation_Forall; eauto.
    + eapply Permutation_Forall; eauto.
Qed.

Lemma ins_all_raw (types : byte -> Prop) (ins : pair -> S -> res ierr S) pairs l :
  fraw types ins pairs ->
  Forall (fun p => types (ptype p)) l ->
  forall s s', ins_all ins l s = Ok s' -> Permutation (pairs s') (l ++ pairs s).
Proof.
  intros Hr Hl. induction Hl as [|p l Hp Hl IH]; intros s s' H; cbn [ins_all] in H.
  - inv H. reflexivity.
  - binds H. rewrite (IH _ _ H). rewrite (Hr _ _ _ Hp Hx). cbn. symmetry. apply Permutation_middle.
Qed.
End InsAll.

(** ** Fields of the three kinds *)

Section Fields.
Context `{X : Ext} {L : ExtLaws X}.

Lemma is_empty_nil {A} (l : list A) : is_empty l = true <-> l = [].
Proof. destruct l; split; cbn; congruence. Qed.

Lemma wf_pair_value p : wf_pair p -> blen (p_value p) <= VLIM.
Proof. intros [_ H]. unfold wf_value in H. lims. lia. Qed.

Section Opt.
Context {A : Type} (t : byte) (wf : A -> Prop) (ser : A -> bytes) (de : bytes -> res serr A) (nrm : A -> A).
Hypothesis Hrt : forall a, wf a -> de (ser a) = Ok (nrm a).
Hypothesis Hlen : forall a, wf a -> blen (ser a) <= VLIM.
Hypothesis Hwf : forall b a, blen b <= VLIM -> de b = Ok a -> wf a.
Hypothesis Hnp : forall b, de b <> Panic.

Lemma opt_fspec_n :
  fspec (eq t) (ins_opt de) (opt_pairs t ser) None (opt_all wf) (option_map nrm).
Proof.
  constructor.
  - intros [a|] H; cbn in *; [|reflexivity]. unfold ins_opt. cbn [p_key k_data is_empty p_value].
    rewrite Hrt by assumption. reflexivity.
  - exact I.
  - intros p a a' _ Hp Ha H. unfold ins_opt in H. destruct (is_empty _); [|discriminate].
    destruct a; [discriminate|]. binds H. inj H. apply map_err_ok in Hx. cbn. eapply Hwf; [|exact Hx].
    now apply wf_pair_value.
  - intros p a. unfold ins_opt. destruct (is_empty _); [|discriminate]. destruct a; [discriminate|].
    pose proof (Hnp (p_value p)). destruct (de (p_value p)); cbn; congruence.
  - intros [a|] H; cbn in *; constructor; [|constructor]. split.
    + unfold wf_key. cbn. unfold MAX_VEC_SIZE. rewrite blen_nil. lia.
    + unfold wf_value. cbn. apply Hlen in H. lims. lia.
  - intros [a|] p H Hin; cbn in Hin; [|tauto]. destruct Hin as [<-|[]]. reflexivity.
  - intros [a|] H; cbn; repeat constructor. tauto.
Qed.

Lemma opt_fdup : fdup (eq t) (ins_opt de).
Proof.
  exists (fun _ a => is_some a = true). repeat apply conj.
  - intros p a a' _ H. unfold ins_opt in H. destruct (is_empty _); [|discriminate].
    destruct a; [discriminate|]. binds H. inj H. reflexivity.
  - intros k p a a' _ Hk H. unfold ins_opt in H. destruct (is_empty _); [|discriminate].
    destruct a; [discriminate|]. discriminate.
  - intros p a _ Hk. unfold ins_opt. destruct (is_empty _); [|reflexivity]. destruct a; [reflexivity|discriminate].
Qed.

Lemma opt_fcomm wf' : fcomm (eq t) (ins_opt de) wf'.
Proof.
  intros p q a b c _ _ _ _ _ H1 H2. exfalso. unfold ins_opt in *.
  destruct (is_empty (k_data (p_key p))); [|discriminate]. destruct a; [discriminate|]. binds H1. inj H1.
  destruct (is_empty _); discriminate.
Qed.
End Opt.

Lemma fspec_norm_ext {A} types upd pairs empty wf (n n' : A -> A) :
  (forall a, n a = n' a) -> fspec types upd pairs empty wf n -> fspec types upd pairs empty wf n'.
Proof. intros E [H1 H2 H3 H4 H5 H6 H7]. constructor; auto. intros a Ha. rewrite <- E. auto. Qed.

Lemma opt_fspec {A} t (wf : A -> Prop) ser de :
  codec_ok VLIM wf ser de ->
  fspec (eq t) (ins_opt de) (opt_pairs t ser) None (opt_all wf) (fun a => a).
Proof.
  intros [H1 H2 H3 H4]. apply (fspec_norm_ext _ _ _ _ _ (option_map (fun a => a))).
  - now intros [a|].
  - apply (opt_fspec_n t wf ser de (fun a => a)); auto.
Qed.

Section Map.
Context {K V : Type} (t : byte) (sk : K -> list N) (wfk : K -> Prop) (wfv : V -> Prop)
  (serk : K -> bytes) (dek : bytes -> res serr K) (serv : V -> bytes) (dev : bytes -> res serr V).
Hypothesis sk_inj : forall a b, sk a = sk b -> a = b.
Hypothesis Hk : codec_ok KLIM wfk serk dek.
Hypothesis Hv : codec_ok VLIM wfv serv dev.
Hypothesis Hne : forall k, wfk k -> serk k <> [].

Lemma serk_inj a b : wfk a -> wfk b -> serk a = serk b -> a = b.
Proof.
  intros Ha Hb E. apply (co_rt _ _ _ _ Hk) in Ha, Hb. rewrite E in Ha. congruence.
Qed.

Lemma ins_all_map m2 : forall m1,
  m_sorted sk (m1 ++ m2) -> Forall (fun kv => wfk (fst kv) /\ wfv (snd kv)) m2 ->
  ins_all (ins_map sk dek dev) (map_pairs t serk serv m2) m1 = Ok (m1 ++ m2).
Proof.
  induction m2 as [|[k v] m2 IH]; intros m1 Hs Hf.
  - cbn. now rewrite app_nil_r.
  - inv Hf. destruct H1 as [Hwk Hwv]. cbn [fst snd] in *. cbn [map_pairs map ins_all fst snd].
    assert (E : ins_map sk dek dev (Pair (Key t (serk k)) (serv v)) m1 = Ok (m1 ++ [(k, v)])).
    { unfold ins_map. cbn [p_key k_data p_value].
      destruct (is_empty (serk k)) eqn:Ee; [apply is_empty_nil in Ee; now apply Hne in Ee|].
      rewrite (co_rt _ _ _ _ Hk) by assumption. cbn [map_err bind].
      apply (m_sorted_app_inv sk) in Hs as (Hlt & Hn & _).
      destruct (m_mem sk k m1) eqn:Em; [apply (m_mem_in sk sk_inj) in Em; tauto|].
      rewrite (co_rt _ _ _ _ Hv) by assumption. cbn [map_err bind].
      now rewrite m_put_last. }
    rewrite E. cbn [bind]. change (map _ m2) with (map_pairs t serk serv m2).
    rewrite IH; rewrite <- ?app_assoc; auto.
Qed.

Lemma ins_map_inv p m m' :
  ins_map sk dek dev p m = Ok m' ->
  exists k v, dek (k_data (p_key p)) = Ok k /\ dev (p_value p) = Ok v /\ m_mem sk k m = false /\ m' = m_put sk k v m.
Proof.
  unfold ins_map. destruct (is_empty _); [discriminate|]. intros H. binds H. apply map_err_ok in Hx.
  destruct (m_mem sk x m) eqn:E; [discriminate|]. binds H. apply map_err_ok in Hx0. inj H. eauto 8.
Qed.

Lemma ins_map_intro p m k v :
  k_data (p_key p) <> [] -> dek (k_data (p_key p)) = Ok k -> dev (p_value p) = Ok v -> m_mem sk k m = false ->
  ins_map sk dek dev p m = Ok (m_put sk k v m).
Proof.
  intros H0 H1 H2 H3. unfold ins_map.
  destruct (is_empty _) eqn:Ee; [apply is_empty_nil in Ee; tauto|].
  rewrite H1. cbn [map_err bind]. rewrite H3, H2. reflexivity.
Qed.

Lemma ins_map_nonempty p m m' : ins_map sk dek dev p m = Ok m' -> k_data (p_key p) <> [].
Proof. unfold ins_map. destruct (k_data _); [discriminate|]. discriminate. Qed.

Lemma map_fspec :
  fspec (eq t) (ins_map sk dek dev) (map_pairs t serk serv) [] (wf_map sk wfk wfv) (fun m => m).
Proof.
  constructor.
  - intros m [Hs Hf]. now apply (ins_all_map m []).
  - split; constructor.
  - intros p m m' _ [Hp1 Hp2] [Hs Hf] H. apply ins_map_inv in H as (k & v & E1 & E2 & _ & ->). split.
    + now apply m_put_sorted.
    + apply m_put_forall; auto. cbn [fst snd]. split.
      * eapply (co_wf _ _ _ _ Hk); [|exact E1]. exact Hp1.
      * eapply (co_wf _ _ _ _ Hv); [|exact E2]. unfold wf_value in Hp2. lims. lia.
  - intros p m. unfold ins_map. destruct (is_empty _); [discriminate|].
    pose proof (co_np _ _ _ _ Hk (k_data (p_key p))). destruct (dek _); cbn; try congruence.
    destruct (m_mem _ _ _); [discriminate|].
    pose proof (co_np _ _ _ _ Hv (p_value p)). destruct (dev _); cbn; congruence.
  - intros m [Hs Hf]. unfold map_pairs. apply Forall_map. eapply Forall_impl; [|exact Hf].
    intros [k v] [H1 H2]. cbn [fst snd] in *. split.
    + unfold wf_key. cbn [p_key k_data]. now apply (co_len _ _ _ _ Hk).
    + unfold wf_value. cbn [p_value]. apply (co_len _ _ _ _ Hv) in H2. lims. lia.
  - intros m p [Hs Hf] Hin. unfold map_pairs in Hin. apply in_map_iff in Hin as (kv & <- & _). reflexivity.
  - intros m [Hs Hf]. unfold map_pairs. rewrite map_map. cbn [p_key].
    apply m_sorted_NoDup in Hs. revert Hs. induction Hf as [|[k v] m [Hwk Hwv] Hf IH]; cbn; intros Hs; constructor.
    + inv Hs. intros Hin. apply in_map_iff in Hin as ([k' v'] & E & Hin'). apply H1.
      cbn [fst] in E. injection E as E. apply in_map_iff. exists (k', v'). split; auto.
      rewrite Forall_forall in Hf. apply Hf in Hin' as [Hk' _]. now apply serk_inj.
    + inv Hs. auto.
Qed.

Lemma map_fdup : fdup (eq t) (ins_map sk dek dev).
Proof.
  exists (fun k m => exists kk, dek (k_data k) = Ok kk /\ m_mem sk kk m = true). repeat apply conj.
  - intros p m m' _ H. apply ins_map_inv in H as (k & v & E1 & E2 & _ & ->). exists k. split; auto.
    apply (m_mem_put_eq _ sk_inj).
  - intros k p m m' _ (kk & E1 & E2) H. apply ins_map_inv in H as (k' & v & _ & _ & _ & ->). exists kk. split; auto.
    now apply (m_mem_put_mono _ sk_inj).
  - intros p m _ (kk & E1 & E2). unfold ins_map. destruct (is_empty _); [reflexivity|]. rewrite E1. cbn [map_err bind].
    now rewrite E2.
Qed.

Lemma map_fcomm : fcomm (eq t) (ins_map sk dek dev) (wf_map sk wfk wfv).
Proof.
  intros p q a b c _ _ [Hs _] _ _ H1 H2. pose proof (ins_map_nonempty _ _ _ H1). pose proof (ins_map_nonempty _ _ _ H2).
  apply ins_map_inv in H1 as (k1 & v1 & D1 & D2 & M1 & ->).
  apply ins_map_inv in H2 as (k2 & v2 & E1 & E2 & M2 & ->).
  apply (m_mem_put_false _ sk_inj) in M2 as [Hneq M3].
  exists (m_put sk k2 v2 a). split.
  - now apply ins_map_intro.
  - rewrite (m_put_comm sk sk_inj k2 v2 k1 v1) by auto. apply ins_map_intro; auto.
    apply (m_mem_put_false _ sk_inj). auto.
Qed.
End Map.

(** Preimage maps: a map whose entries satisfy [h v = k]. *)
Section Hash.
Context (t : byte) (n : nat) (h : bytes -> bytes) (ht : hash_type).
Hypothesis Hn : (0 < n <= 32)%nat.

Definition wf_preimages (m : list (bytes * bytes)) : Prop :=
  m_sorted bkey m /\ Forall (fun kv => h (snd kv) = fst kv /\ length (fst kv) = n /\ wf_value (snd kv)) m.

Lemma ins_hash_inv p m m' :
  ins_hash (N.of_nat n) h ht p m = Ok m' ->
  k_data (p_key p) <> [] /\ length (k_data (p_key p)) = n /\ h (p_value p) = k_data (p_key p) /\
  m_mem bkey (k_data (p_key p)) m = false /\ m' = m_put bkey (k_data (p_key p)) (p_value p) m.
Proof.
  unfold ins_hash. destruct (is_empty _) eqn:Ee; [discriminate|]. intros H. binds H. apply map_err_ok in Hx.
  unfold de_hash in Hx. destruct (blen _ =? N.of_nat n) eqn:El; [|discriminate]. inj Hx.
  destruct (m_mem _ _ m) eqn:E; [discriminate|]. unfold de_vec in H. cbn [map_err bind] in H.
  destruct (bytes_eqb _ _) eqn:Eh; [|discriminate]. inj H. apply bytes_eqb_eq in Eh.
  repeat split; auto.
  - intros E0. rewrite E0 in Ee. discriminate.
  - unfold blen in El. lia.
Qed.

Lemma ins_hash_intro p m :
  length (k_data (p_key p)) = n -> h (p_value p) = k_data (p_key p) ->
  m_mem bkey (k_data (p_key p)) m = false ->
  ins_hash (N.of_nat n) h ht p m = Ok (m_put bkey (k_data (p_key p)) (p_value p) m).
Proof.
  intros H1 H2 H3. unfold ins_hash. destruct (is_empty _) eqn:Ee.
  { apply is_empty_nil in Ee. rewrite Ee in H1. cbn in H1. lia. }
  unfold de_hash, blen. rewrite H1, N.eqb_refl. cbn [map_err bind]. rewrite H3.
  unfold de_vec. cbn [map_err bind]. rewrite H2, bytes_eqb_refl. reflexivity.
Qed.

Lemma ins_all_hash m2 : forall m1,
  m_sorted bkey (m1 ++ m2) -> Forall (fun kv => h (snd kv) = fst kv /\ length (fst kv) = n /\ wf_value (snd kv)) m2 ->
  ins_all (ins_hash (N.of_nat n) h ht) (map_pairs t ser_hash ser_vec m2) m1 = Ok (m1 ++ m2).
Proof.
  induction m2 as [|[k v] m2 IH]; intros m1 Hs Hf.
  - cbn. now rewrite app_nil_r.
  - inv Hf. destruct H1 as (Hh & Hl & Hw). cbn [fst snd] in *. cbn [map_pairs map ins_all fst snd].
    pose proof (m_sorted_app_inv bkey _ _ _ _ Hs) as (Hlt & Hnin & _).
    rewrite ins_hash_intro.
    + cbn [bind p_key k_data p_value]. unfold ser_hash, ser_vec. rewrite m_put_last by assumption.
      change (map _ m2) with (map_pairs t ser_hash ser_vec m2).
      rewrite IH; rewrite <- ?app_assoc; auto.
    + exact Hl.
    + exact Hh.
    + cbn [p_key k_data]. unfold ser_hash. destruct (m_mem bkey k m1) eqn:Em; auto.
      apply (m_mem_in bkey bkey_inj) in Em. tauto.
Qed.

Lemma hash_fspec :
  fspec (eq t) (ins_hash (N.of_nat n) h ht) (map_pairs t ser_hash ser_vec) [] wf_preimages (fun m => m).
Proof.
  constructor.
  - intros m [Hs Hf]. now apply (ins_all_hash m []).
  - split; constructor.
  - intros p m m' _ [Hp1 Hp2] [Hs Hf] H. apply ins_hash_inv in H as (_ & H1 & H2 & _ & ->). split.
    + apply m_put_sorted; [exact bkey_inj|exact Hs].
    + apply m_put_forall; auto.
  - intros p m. unfold ins_hash, de_hash, de_vec. destruct (is_empty _); [discriminate|].
    destruct (_ =? _); cbn; [|discriminate]. destruct (m_mem _ _ _); [discriminate|]. destruct (bytes_eqb _ _); discriminate.
  - intros m [Hs Hf]. unfold map_pairs. apply Forall_map. eapply Forall_impl; [|exact Hf].
    intros [k v] (H1 & H2 & H3). cbn [fst snd] in *. split.
    + unfold wf_key. cbn [p_key k_data]. unfold ser_hash, blen, MAX_VEC_SIZE. lia.
    + exact H3.
  - intros m p _ Hin. unfold map_pairs in Hin. apply in_map_iff in Hin as (kv & <- & _). reflexivity.
  - intros m [Hs Hf]. unfold map_pairs. rewrite map_map. cbn [p_key]. unfold ser_hash.
    apply m_sorted_NoDup in Hs. rewrite <- (map_map fst (Key t)).
    apply FinFun.Injective_map_NoDup; auto. intros a b [= E]. exact E.
Qed.

Lemma hash_fdup : fdup (eq t) (ins_hash (N.of_nat n) h ht).
Proof.
  exists (fun k m => m_mem bkey (k_data k) m = true). repeat apply conj.
  - intros p m m' _ H. apply ins_hash_inv in H as (_ & _ & _ & _ & ->).
    apply (m_mem_put_eq _ bkey_inj).
  - intros k p m m' _ Hk H. apply ins_hash_inv in H as (_ & _ & _ & _ & ->).
    now apply (m_mem_put_mono _ bkey_inj).
  - intros p m _ Hk. destruct (ins_hash _ _ _ _ _) eqn:E; auto. apply ins_hash_inv in E as (_ & _ & _ & E & _). congruence.
Qed.

Lemma hash_fcomm : fcomm (eq t) (ins_hash (N.of_nat n) h ht) wf_preimages.
Proof.
  intros p q a b c _ _ [Hs _] _ _ H1 H2.
  apply ins_hash_inv in H1 as (_ & D1 & D2 & M1 & ->).
  apply ins_hash_inv in H2 as (_ & E1 & E2 & M2 & ->).
  apply (m_mem_put_false _ bkey_inj) in M2 as [Hneq M3].
  eexists. split; [now apply ins_hash_intro|].
  rewrite ins_hash_intro; auto.
  - f_equal. apply m_put_comm; auto. exact bkey_inj.
  - apply (m_mem_put_false _ bkey_inj). auto.
Qed.
End Hash.

(** Silent payment maps. *)
Section SP.
Context (t : byte) (wfv : bytes -> Prop) (serv : bytes -> bytes) (dev : bytes -> option bytes) (want : N).
Hypothesis Hrt : forall v, wfv v -> dev (serv v) = Some v.
Hypothesis Hlen : forall v, wfv v -> blen (serv v) <= VLIM.
Hypothesis Hwf : forall b v, dev b = Some v -> wfv v.

Definition dek_sp (b : bytes) : res serr bytes := ok_or (de_cpk b) SInvalidSecp256k1PublicKey.
Definition dev_sp (b : bytes) : res serr bytes := ok_or (dev b) SInvalidSecp256k1PublicKey.

Lemma cpk_codec lim : 33 <= lim -> codec_ok lim wf_secp ser_secp dek_sp.
Proof.
  intros Hl. unfold dek_sp, de_cpk. constructor; unfold wf_secp, ser_secp.
  - intros a H. now rewrite H.
  - intros a H. apply secp_parse_len in H. unfold blen. lia.
  - intros b a _ H. apply ok_or_ok in H. now apply secp_parse_idem in H.
  - intros b. destruct (secp_parse b); discriminate.
Qed.
Lemma dev_sp_codec : codec_ok VLIM wfv serv dev_sp.
Proof.
  unfold dev_sp. constructor; auto.
  - intros a H. now rewrite Hrt.
  - intros b a _ H. apply ok_or_ok in H. eauto.
  - intros b. destruct (dev b); discriminate.
Qed.

(** Apart from the errors [ins_sp] is [ins_map]. *)
Lemma ins_sp_map p m m' : ins_sp dev want p m = Ok m' <-> ins_map bkey dek_sp dev_sp p m = Ok m'.
Proof.
  unfold ins_sp, ins_map, dek_sp, dev_sp. destruct (is_empty _); [split; discriminate|].
  destruct (de_cpk _); cbn [ok_or map_err bind]; [|split; discriminate].
  destruct (dev _); cbn [ok_or map_err bind].
  - destruct (m_mem _ _ _); cbn; split; try discriminate; auto.
  - destruct (m_mem _ _ _); cbn; split; discriminate.
Qed.
Lemma ins_sp_np p m : ins_sp dev want p m <> Panic.
Proof.
  unfold ins_sp. destruct (is_empty _); [discriminate|]. destruct (de_cpk _); cbn; [|discriminate].
  destruct (dev _); cbn; [|discriminate]. destruct (m_mem _ _ _); discriminate.
Qed.
Lemma ins_all_sp l : forall m m', ins_all (ins_map bkey dek_sp dev_sp) l m = Ok m' -> ins_all (ins_sp dev want) l m = Ok m'.
Proof.
  induction l as [|p l IH]; intros m m' H; cbn [ins_all] in *; auto. binds H.
  apply ins_sp_map in Hx. rewrite Hx. cbn [bind]. auto.
Qed.

Lemma secp_nonempty k : wf_secp k -> ser_secp k <> [].
Proof. intros H E. apply secp_parse_len in H. unfold ser_secp in E. subst k. discriminate. Qed.

Lemma sp_fspec :
  fspec (eq t) (ins_sp dev want) (map_pairs t ser_secp serv) [] (wf_map bkey wf_secp wfv) (fun m => m).
Proof.
  pose proof (map_fspec t bkey _ _ _ _ _ _ bkey_inj (cpk_codec KLIM ltac:(lims; lia)) dev_sp_codec secp_nonempty) as H.
  constructor.
  - intros m Hm. apply ins_all_sp. now apply (fs_rt _ _ _ _ _ _ H).
  - apply (fs_wf0 _ _ _ _ _ _ H).
  - intros p m m' Ht Hp Hm E. apply ins_sp_map in E. eapply (fs_wf _ _ _ _ _ _ H); eauto.
  - apply ins_sp_np.
  - apply (fs_pw _ _ _ _ _ _ H).
  - apply (fs_ty _ _ _ _ _ _ H).
  - apply (fs_nd _ _ _ _ _ _ H).
Qed.
Lemma sp_fdup : fdup (eq t) (ins_sp dev want).
Proof.
  destruct (map_fdup t bkey dek_sp dev_sp bkey_inj) as (hask & H1 & H2 & H3).
  exists hask. repeat apply conj.
  - intros p a a' Ht E. apply ins_sp_map in E. eauto.
  - intros k p a a' Ht Hk E. apply ins_sp_map in E. eauto.
  - intros p a Ht Hk. specialize (H3 p a Ht Hk). destruct (ins_sp _ _ _ _) eqn:E; auto.
    apply ins_sp_map in E. rewrite E in H3. discriminate.
Qed.
Lemma sp_fcomm : fcomm (eq t) (ins_sp dev want) (wf_map bkey wf_secp wfv).
Proof.
  intros p q a b c H1 H2 H3 H4 H5 E1 E2. apply ins_sp_map in E1. apply ins_sp_map in E2.
  destruct (map_fcomm t bkey wf_secp wfv dek_sp dev_sp bkey_inj p q a b c) as (b' & F1 & F2); auto.
  exists b'. split; now apply ins_sp_map.
Qed.
End SP.

(** Proprietary pairs. *)
Section Prop_.
Context (err : serr -> ierr).

Definition wf_props := wf_map sk_propkey wf_propkey wf_value.

Lemma ins_prop_inv p m m' :
  ins_prop err p m = Ok m' ->
  exists k, propkey_try_from (p_key p) = Ok k /\ m_mem sk_propkey k m = false /\ m' = m_put sk_propkey k (p_value p) m.
Proof.
  unfold ins_prop. intros H. binds H. apply map_err_ok in Hx. destruct (m_mem _ _ _) eqn:E; [discriminate|].
  inj H. eauto.
Qed.
Lemma ins_prop_intro p m k :
  propkey_try_from (p_key p) = Ok k -> m_mem sk_propkey k m = false ->
  ins_prop err p m = Ok (m_put sk_propkey k (p_value p) m).
Proof. intros H1 H2. unfold ins_prop. rewrite H1. cbn [map_err bind]. now rewrite H2. Qed.

Lemma ins_all_prop m2 : forall m1,
  m_sorted sk_propkey (m1 ++ m2) -> Forall (fun kv => wf_propkey (fst kv) /\ wf_value (snd kv)) m2 ->
  ins_all (ins_prop err) (prop_pairs m2) m1 = Ok (m1 ++ m2).
Proof.
  induction m2 as [|[k v] m2 IH]; intros m1 Hs Hf.
  - cbn. now rewrite app_nil_r.
  - inv Hf. destruct H1 as [Hwk Hwv]. cbn [fst snd] in *. cbn [prop_pairs map ins_all fst snd].
    pose proof (m_sorted_app_inv _ _ _ _ _ Hs) as (Hlt & Hnin & _).
    rewrite (ins_prop_intro _ _ k).
    + cbn [bind p_value]. rewrite m_put_last by assumption.
      change (map _ m2) with (prop_pairs m2). rewrite IH; rewrite <- ?app_assoc; auto.
    + now apply propkey_roundtrip.
    + destruct (m_mem sk_propkey k m1) eqn:Em; auto. apply (m_mem_in _ sk_propkey_inj) in Em. tauto.
Qed.

Lemma propkey_to_key_inj a b : wf_propkey a -> wf_propkey b -> propkey_to_key a = propkey_to_key b -> a = b.
Proof. intros Ha Hb E. apply propkey_roundtrip in Ha, Hb. rewrite E in Ha. congruence. Qed.

Lemma prop_fspec : fspec (eq xfc) (ins_prop err) prop_pairs [] wf_props (fun m => m).
Proof.
  constructor.
  - intros m [Hs Hf]. now apply (ins_all_prop m []).
  - split; constructor.
  - intros p m m' _ [Hp1 Hp2] [Hs Hf] H. apply ins_prop_inv in H as (k & H1 & H2 & ->). split.
    + apply m_put_sorted; [exact sk_propkey_inj|exact Hs].
    + apply m_put_forall; auto. cbn [fst snd]. split; [|exact Hp2].
      apply propkey_try_from_inv in H1 as [E Hl]. split; [|exact Hl].
      unfold wf_key in Hp1. rewrite E in Hp1. exact Hp1.
  - intros p m. unfold ins_prop. pose proof (propkey_try_from_nopanic (p_key p)).
    destruct (propkey_try_from _); cbn; try congruence. destruct (m_mem _ _ _); discriminate.
  - intros m [Hs Hf]. unfold prop_pairs. apply Forall_map. eapply Forall_impl; [|exact Hf].
    intros [k v] [[H1 H2] H3]. split; [exact H1|exact H3].
  - intros m p _ Hin. unfold prop_pairs in Hin. apply in_map_iff in Hin as (kv & <- & _). reflexivity.
  - intros m [Hs Hf]. unfold prop_pairs. rewrite map_map. cbn [p_key].
    apply m_sorted_NoDup in Hs. revert Hs. induction Hf as [|[k v] m [Hwk Hwv] Hf IH]; cbn; intros Hs; constructor.
    + inv Hs. intros Hin. apply in_map_iff in Hin as ([k' v'] & E & Hin'). apply H1.
      cbn [fst] in E. apply in_map_iff. exists (k', v'). split; auto.
      rewrite Forall_forall in Hf. apply Hf in Hin' as [Hk' _]. now apply propkey_to_key_inj.
    + inv Hs. auto.
Qed.
Lemma prop_fdup : fdup (eq xfc) (ins_prop err).
Proof.
  exists (fun k m => exists kk, propkey_try_from k = Ok kk /\ m_mem sk_propkey kk m = true). repeat apply conj.
  - intros p m m' _ H. apply ins_prop_inv in H as (k & E1 & _ & ->). exists k. split; auto.
    apply (m_mem_put_eq _ sk_propkey_inj).
  - intros k p m m' _ (kk & E1 & E2) H. apply ins_prop_inv in H as (k' & _ & _ & ->). exists kk. split; auto.
    now apply (m_mem_put_mono _ sk_propkey_inj).
  - intros p m _ (kk & E1 & E2). unfold ins_prop. rewrite E1. cbn [map_err bind]. now rewrite E2.
Qed.
Lemma prop_fcomm : fcomm (eq xfc) (ins_prop err) wf_props.
Proof.
  intros p q a b c _ _ [Hs _] _ _ H1 H2.
  apply ins_prop_inv in H1 as (k1 & D1 & M1 & ->).
  apply ins_prop_inv in H2 as (k2 & E1 & M2 & ->).
  apply (m_mem_put_false _ sk_propkey_inj) in M2 as [Hneq M3].
  eexists. split; [exact (ins_prop_intro _ _ _ E1 M3)|]. rewrite (ins_prop_intro _ _ k1); auto.
  - f_equal. apply m_put_comm; auto. exact sk_propkey_inj.
  - apply (m_mem_put_false _ sk_propkey_inj). auto.
Qed.
Lemma m_mem_false {K V} (sk : K -> list N) k (m : list (K * V)) : m_mem sk k m = false -> m_get sk k m = None.
Proof. unfold m_mem. destruct (m_get sk k m); [discriminate|reflexivity]. Qed.
Lemma prop_fraw : fraw (eq xfc) (ins_prop err) prop_pairs.
Proof.
  intros p m m' _ H. apply ins_prop_inv in H as (k & E1 & M & ->).
  unfold prop_pairs. apply m_mem_false in M. rewrite (m_put_permutation _ _ _ _ M). cbn [map fst snd].
  apply propkey_try_from_inv in E1 as [E _]. rewrite <- E. destruct p as [kk v]. reflexivity.
Qed.
End Prop_.

(** Unknown pairs; [types] are the key types that end up there. *)
Section Unknown.
Context (types : byte -> Prop).

Definition wf_unknowns (m : list (key * bytes)) : Prop :=
  wf_map sk_key (fun k => wf_key k /\ types (k_type k)) wf_value m.

Lemma ins_unknown_inv p m m' :
  ins_unknown p m = Ok m' -> m_mem sk_key (p_key p) m = false /\ m' = m_put sk_key (p_key p) (p_value p) m.
Proof. unfold ins_unknown. destruct (m_mem _ _ _); [discriminate|]. intros H. inj H. auto. Qed.
Lemma ins_unknown_intro p m :
  m_mem sk_key (p_key p) m = false -> ins_unknown p m = Ok (m_put sk_key (p_key p) (p_value p) m).
Proof. intros H. unfold ins_unknown. now rewrite H. Qed.

Lemma ins_all_unknown m2 : forall m1,
  m_sorted sk_key (m1 ++ m2) -> ins_all ins_unknown (unknown_pairs m2) m1 = Ok (m1 ++ m2).
Proof.
  induction m2 as [|[k v] m2 IH]; intros m1 Hs.
  - cbn. now rewrite app_nil_r.
  - cbn [unknown_pairs map ins_all fst snd].
    pose proof (m_sorted_app_inv _ _ _ _ _ Hs) as (Hlt & Hnin & _).
    rewrite ins_unknown_intro.
    + cbn [bind p_value p_key]. rewrite m_put_last by assumption.
      change (map _ m2) with (unknown_pairs m2). rewrite IH; rewrite <- ?app_assoc; auto.
    + cbn [p_key]. destruct (m_mem sk_key k m1) eqn:Em; auto. apply (m_mem_in _ sk_key_inj) in Em. tauto.
Qed.
Lemma unknown_fspec : fspec types ins_unknown unknown_pairs [] wf_unknowns (fun m => m).
Proof.
  constructor.
  - intros m [Hs Hf]. now apply (ins_all_unknown m []).
  - split; constructor.
  - intros p m m' Ht [Hp1 Hp2] [Hs Hf] H. apply ins_unknown_inv in H as (_ & ->). split.
    + apply m_put_sorted; [exact sk_key_inj|exact Hs].
    + apply m_put_forall; auto.
  - intros p m. unfold ins_unknown. destruct (m_mem _ _ _); discriminate.
  - intros m [Hs Hf]. unfold unknown_pairs. apply Forall_map. eapply Forall_impl; [|exact Hf].
    intros [k v] [[H1 H2] H3]. split; [exact H1|exact H3].
  - intros m p [Hs Hf] Hin. unfold unknown_pairs in Hin. apply in_map_iff in Hin as (kv & <- & Hin).
    rewrite Forall_forall in Hf. apply Hf in Hin as [[_ Hin] _]. exact Hin.
  - intros m [Hs Hf]. unfold unknown_pairs. rewrite map_map. cbn [p_key]. now apply m_sorted_NoDup in Hs.
Qed.
Lemma unknown_fdup : fdup types ins_unknown.
Proof.
  exists (fun k m => m_mem sk_key k m = true). repeat apply conj.
  - intros p m m' _ H. apply ins_unknown_inv in H as (_ & ->).
    apply (m_mem_put_eq _ sk_key_inj).
  - intros k p m m' _ Hk H. apply ins_unknown_inv in H as (_ & ->).
    now apply (m_mem_put_mono _ sk_key_inj).
  - intros p m _ Hk. unfold ins_unknown. now rewrite Hk.
Qed.
Lemma unknown_fcomm : fcomm types ins_unknown wf_unknowns.
Proof.
  intros p q a b c _ _ [Hs _] _ _ H1 H2.
  apply ins_unknown_inv in H1 as (M1 & ->). apply ins_unknown_inv in H2 as (M2 & ->).
  apply (m_mem_put_false _ sk_key_inj) in M2 as [Hneq M3].
  eexists. split; [now apply ins_unknown_intro|]. rewrite ins_unknown_intro; auto.
  - f_equal. apply m_put_comm; auto. exact sk_key_inj.
  - apply (m_mem_put_false _ sk_key_inj). auto.
Qed.
Lemma unknown_fraw : fraw types ins_unknown unknown_pairs.
Proof.
  intros p m m' _ H. apply ins_unknown_inv in H as (M & ->). unfold unknown_pairs.
  apply m_mem_false in M. rewrite (m_put_permutation _ _ _ _ M). cbn [map fst snd]. destruct p; reflexivity.
Qed.
End Unknown.

(** Placeholder fields (no duplicate detection while the placeholder is stored). *)
Section Placeholder.
Context {A : Type} (t : byte) (isp : A -> bool) (empty : A) (wf : A -> Prop) (ser : A -> bytes) (de : bytes -> res serr A).
Hypothesis Hc : codec_ok VLIM wf ser de.
Hypothesis Hisp : isp empty = true.
Hypothesis Hwfe : wf empty.

Lemma placeholder_fspec :
  fspec (eq t) (ins_placeholder isp de) (fun a => [Pair (Key t []) (ser a)]) empty wf (fun a => a).
Proof.
  constructor.
  - intros a Ha. cbn [ins_all]. unfold ins_placeholder. rewrite Hisp. cbn [negb p_value].
    rewrite (co_rt _ _ _ _ Hc) by assumption. reflexivity.
  - exact Hwfe.
  - intros p a a' _ Hp Ha H. unfold ins_placeholder in H. destruct (isp a); cbn [negb] in H; [|discriminate].
    apply map_err_ok in H. eapply (co_wf _ _ _ _ Hc); [|exact H]. now apply wf_pair_value.
  - intros p a. unfold ins_placeholder. destruct (negb _); [discriminate|].
    pose proof (co_np _ _ _ _ Hc (p_value p)). destruct (de _); cbn; congruence.
  - intros a Ha. constructor; [|constructor]. split.
    + unfold wf_key. cbn. unfold MAX_VEC_SIZE. rewrite blen_nil. lia.
    + unfold wf_value. cbn [p_value]. apply (co_len _ _ _ _ Hc) in Ha. lims. lia.
  - intros a p _ [<-|[]]. reflexivity.
  - intros a _. cbn. constructor; [tauto|constructor].
Qed.
End Placeholder.

End Fields.

(** A field of a feature that is switched off. *)
Lemma fspec_off {A} types (upd : pair -> A -> res ierr A) pairs empty wf norm :
  fspec types upd pairs empty wf norm ->
  fspec (fun _ => False) upd (fun _ => []) empty (fun a => a = empty) (fun a => a).
Proof.
  intros H. constructor; auto.
  - intros a ->. reflexivity.
  - tauto.
  - apply (fs_np _ _ _ _ _ _ H).
  - intros a _. constructor.
Qed.

(** ** From fields to maps *)

Section Frame.
Context {S F : Type} (fty : F -> Type) (get : forall f, S -> fty f) (set : forall f, fty f -> S -> S)
  (Fdec : forall a b : F, {a = b} + {a <> b})
  (upd : forall f, pair -> fty f -> res ierr (fty f)) (slot : byte -> F)
  (ins : pair -> S -> res ierr S).

Record frame_ok : Prop := {
  fo_same : forall f v s, get f (set f v s) = v;
  fo_other : forall f g v s, f <> g -> get g (set f v s) = get g s;
  fo_ext : forall s s', (forall f, get f s = get f s') -> s = s';
  fo_ins : forall p s, ins p s = (v <- upd (slot (ptype p)) p (get _ s) ;; Ok (set _ v s))
}.
Hypothesis O : frame_ok.

(** The pairs that belong to a field. *)
Definition of_slot (f : F) (p : pair) : bool := if Fdec (slot (ptype p)) f then true else false.

Lemma of_slot_true f p : of_slot f p = true <-> slot (ptype p) = f.
Proof. unfold of_slot. destruct (Fdec _ _); split; congruence. Qed.

Lemma of_slot_Forall f l : Forall (fun p => slot (ptype p) = f) (filter (of_slot f) l).
Proof. apply Forall_forall. intros p Hp. apply filter_In in Hp as [_ Hp]. now apply of_slot_true. Qed.

Lemma frame_fields l : forall s s',
  ins_all ins l s = Ok s' -> forall f, ins_all (upd f) (filter (of_slot f) l) (get f s) = Ok (get f s').
Proof.
  induction l as [|p l IH]; intros s s' H f; cbn [ins_all] in H.
  - inj H. reflexivity.
  - binds H. rewrite (fo_ins O) in Hx. binds Hx. inj Hx. cbn [filter].
    destruct (of_slot f p) eqn:E.
    + apply of_slot_true in E. subst f. cbn [ins_all]. rewrite Hx0. cbn [bind].
      rewrite <- (IH _ _ H). now rewrite (fo_same O).
    + rewrite <- (IH _ _ H). rewrite (fo_other O); auto. intros E2. apply of_slot_true in E2. congruence.
Qed.

Lemma frame_ok_of_fields l : forall s,
  (forall f, exists v, ins_all (upd f) (filter (of_slot f) l) (get f s) = Ok v) ->
  exists s', ins_all ins l s = Ok s'.
Proof.
  induction l as [|p l IH]; intros s H; [cbn; eauto|].
  destruct (H (slot (ptype p))) as [v Hv]. cbn [filter] in Hv.
  assert (E : of_slot (slot (ptype p)) p = true) by now apply of_slot_true.
  rewrite E in Hv. cbn [ins_all] in Hv. binds Hv.
  cbn [ins_all]. rewrite (fo_ins O), Hx. cbn [bind]. apply IH.
  intros f. destruct (Fdec (slot (ptype p)) f) as [<-|Hn].
  - exists v. now rewrite (fo_same O).
  - destruct (H f) as [w Hw]. cbn [filter] in Hw.
    destruct (of_slot f p) eqn:E2; [apply of_slot_true in E2; congruence|].
    exists w. now rewrite (fo_other O).
Qed.

Lemma frame_intro l s s' :
  (forall f, ins_all (upd f) (filter (of_slot f) l) (get f s) = Ok (get f s')) -> ins_all ins l s = Ok s'.
Proof.
  intros H. destruct (frame_ok_of_fields l s) as [s'' E]; [eauto|].
  rewrite E. f_equal. apply (fo_ext O). intros f. pose proof (frame_fields _ _ _ E f) as Q.
  rewrite H in Q. congruence.
Qed.

(** ** Consequences of field laws *)
Context (pairs : forall f, fty f -> list pair) (order : list F)
  (empty : forall f, fty f) (wf : forall f, fty f -> Prop) (norm : forall f, fty f -> fty f).
Hypothesis Sp : forall f, fspec (fun t => slot t = f) (upd f) (pairs f) (empty f) (wf f) (norm f).
Hypothesis Ond : NoDup order.
Hypothesis Oall : forall f, In f order.

(** All pairs of a map. *)
Definition spairs (s : S) : list pair := flat_map (fun f => pairs f (get f s)) order.

Definition swf (s : S) : Prop := forall f, wf f (get f s).

Lemma filter_slot_pairs f g s : swf s -> filter (of_slot f) (pairs g (get g s)) = if Fdec g f then pairs g (get g s) else [].
Proof.
  intros Hs. destruct (Fdec g f) as [<-|Hn].
  - apply filter_all. intros p Hp. apply of_slot_true. eapply (fs_ty _ _ _ _ _ _ (Sp g)); eauto.
  - apply filter_none. intros p Hp. apply (fs_ty _ _ _ _ _ _ (Sp g)) in Hp; [|apply Hs].
    destruct (of_slot f p) eqn:E; auto. apply of_slot_true in E. congruence.
Qed.

Lemma filter_slot_spairs f s : swf s -> filter (of_slot f) (spairs s) = pairs f (get f s).
Proof.
  intros Hs. unfold spairs. pose proof (Oall f) as Hf. revert Hf Ond. generalize order as o.
  induction o as [|g o IH]; intros Hf Ho; [destruct Hf|]. cbn [flat_map]. rewrite filter_app, filter_slot_pairs by assumption.
  inv Ho. destruct (Fdec g f) as [->|Hn].
  - rewrite <- app_nil_r. f_equal. apply filter_none. intros p Hp.
    apply in_flat_map in Hp as (h & Hh & Hp). apply (fs_ty _ _ _ _ _ _ (Sp h)) in Hp; [|apply Hs].
    destruct (of_slot f p) eqn:E; auto. apply of_slot_true in E. congruence.
  - cbn [app]. destruct Hf as [->|Hf]; [congruence|]. auto.
Qed.

Lemma frame_rt s init :
  swf s -> (forall f, get f init = empty f) ->
  exists s', ins_all ins (spairs s) init = Ok s' /\ forall f, get f s' = norm f (get f s).
Proof.
  intros Hs Hi. assert (H : forall f, ins_all (upd f) (filter (of_slot f) (spairs s)) (get f init) = Ok (norm f (get f s))).
  { intros f. rewrite filter_slot_spairs by assumption. rewrite Hi. apply (fs_rt _ _ _ _ _ _ (Sp f)). apply Hs. }
  destruct (frame_ok_of_fields (spairs s) init) as [s' E]; [eauto|].
  exists s'. split; auto. intros f. pose proof (frame_fields _ _ _ E f) as Q. rewrite H in Q. congruence.
Qed.

Lemma frame_init_wf init : (forall f, get f init = empty f) -> swf init.
Proof. intros Hi f. rewrite Hi. apply (fs_wf0 _ _ _ _ _ _ (Sp f)). Qed.

Lemma frame_wf l s s' : swf s -> Forall wf_pair l -> ins_all ins l s = Ok s' -> swf s'.
Proof.
  intros Hs Hl H f. pose proof (frame_fields _ _ _ H f) as Q.
  refine (ins_all_inv (upd f) (wf f) _ _ _ _ _ Q); [|apply Hs].
  intros p a a' Hin Ha E. apply filter_In in Hin as [Hin Ht]. apply of_slot_true in Ht.
  eapply (fs_wf _ _ _ _ _ _ (Sp f)); eauto. rewrite Forall_forall in Hl. auto.
Qed.

Lemma frame_np p s : ins p s <> Panic.
Proof.
  rewrite (fo_ins O). pose proof (fs_np _ _ _ _ _ _ (Sp (slot (ptype p))) p (get _ s)).
  destruct (upd _ _ _); cbn; congruence.
Qed.

Lemma frame_pairs_wf s : swf s -> Forall wf_pair (spairs s).
Proof.
  intros Hs. apply Forall_forall. intros p Hp. apply in_flat_map in Hp as (f & _ & Hp).
  pose proof (fs_pw _ _ _ _ _ _ (Sp f) _ (Hs f)) as Q. rewrite Forall_forall in Q. auto.
Qed.

Lemma frame_nodup s : swf s -> NoDup (map p_key (spairs s)).
Proof.
  intros Hs. unfold spairs. revert Ond. generalize order as o. induction o as [|f o IH]; intros Ho; cbn; [constructor|].
  inv Ho. rewrite map_app. apply NoDup_app; auto.
  - apply (fs_nd _ _ _ _ _ _ (Sp f)). apply Hs.
  - intros k Hk Hk'. apply in_map_iff in Hk as (p & <- & Hp). apply in_map_iff in Hk' as (q & E & Hq).
    apply in_flat_map in Hq as (g & Hg & Hq).
    apply (fs_ty _ _ _ _ _ _ (Sp f)) in Hp; [|apply Hs]. apply (fs_ty _ _ _ _ _ _ (Sp g)) in Hq; [|apply Hs].
    unfold ptype in *. rewrite E in Hq. congruence.
Qed.

(** Keys of an accepted list are distinct, field by field. *)
Lemma frame_dup f l s s' :
  fdup (fun t => slot t = f) (upd f) -> ins_all ins l s = Ok s' ->
  NoDup (map p_key (filter (of_slot f) l)).
Proof.
  intros Hd H. pose proof (frame_fields _ _ _ H f) as Q.
  eapply ins_all_nodup; eauto. apply of_slot_Forall.
Qed.

Lemma NoDup_filter_positions (P : pair -> bool) l :
  NoDup (map p_key (filter P l)) -> (forall p q, p_key p = p_key q -> P p = P q) ->
  forall i j p q, (i < j)%nat -> nth_error l i = Some p -> nth_error l j = Some q ->
    p_key p = p_key q -> P p = false.
Proof.
  intros Hn HP. induction l as [|r l IH]; intros i j p q Hij Hi Hj E; [destruct i; discriminate|].
  destruct i as [|i].
  - cbn in Hi. inj Hi. destruct (P p) eqn:Ep; auto. exfalso. cbn [filter] in Hn. rewrite Ep in Hn. cbn in Hn. inv Hn.
    apply H1. rewrite E. apply in_map. apply filter_In. split.
    + destruct j as [|j]; [lia|]. cbn in Hj. eapply nth_error_In; eauto.
    + now rewrite <- (HP p q).
  - destruct j as [|j]; [lia|]. cbn in Hi, Hj. refine (IH _ i j p q _ Hi Hj E); [|lia].
    cbn [filter] in Hn. destruct (P r); auto. cbn in Hn. now inv Hn.
Qed.

Lemma frame_dup_positions f l s s' :
  fdup (fun t => slot t = f) (upd f) -> ins_all ins l s = Ok s' ->
  forall i j p q, (i < j)%nat -> nth_error l i = Some p -> nth_error l j = Some q ->
    p_key p = p_key q -> slot (ptype p) <> f.
Proof.
  intros Hd H i j p q Hij Hi Hj E. pose proof (frame_dup _ _ _ _ Hd H) as Q.
  assert (G : of_slot f p = false).
  { eapply NoDup_filter_positions; eauto. intros a b Eab. unfold of_slot, ptype. now rewrite Eab. }
  intros C. apply of_slot_true in C. congruence.
Qed.

(** Permuting an accepted list; the pairs of fields in [ordered] keep their order. *)
Lemma frame_perm (ordered : F -> bool) l l' s s' :
  (forall f, ordered f = false -> fcomm (fun t => slot t = f) (upd f) (wf f)) ->
  swf s -> Forall wf_pair l -> Permutation l l' ->
  (forall f, ordered f = true -> filter (of_slot f) l = filter (of_slot f) l') ->
  ins_all ins l s = Ok s' -> ins_all ins l' s = Ok s'.
Proof.
  intros Hc Hs Hl HP Ho H. apply frame_intro. intros f. pose proof (frame_fields _ _ _ H f) as Q.
  destruct (ordered f) eqn:E.
  - now rewrite <- (Ho f E).
  - eapply (ins_all_perm (fun t => slot t = f) (upd f) (wf f)); [now apply Hc| | | | |apply Hs|exact Q].
    + apply (fs_wf _ _ _ _ _ _ (Sp f)).
    + now apply Permutation_filter.
    + apply of_slot_Forall.
    + apply Forall_forall. intros p Hp. apply filter_In in Hp as [Hp _]. rewrite Forall_forall in Hl. auto.
Qed.

(** Raw fields keep their pairs. *)
Lemma frame_raw f l s s' :
  fraw (fun t => slot t = f) (upd f) (pairs f) -> swf s' -> ins_all ins l s = Ok s' -> pairs f (get f s) = [] ->
  Permutation (filter (of_slot f) (spairs s')) (filter (of_slot f) l).
Proof.
  intros Hr Hs' H He. rewrite filter_slot_spairs by assumption. pose proof (frame_fields _ _ _ H f) as Q.
  pose proof (ins_all_raw _ _ _ _ Hr (of_slot_Forall f l) _ _ Q) as R. now rewrite He, app_nil_r in R.
Qed.

End Frame.

(** ** Transfer of field laws along equivalent key types *)
Lemma fspec_types {A} (t1 t2 : byte -> Prop) upd pairs (empty : A) wf norm :
  (forall t, t1 t <-> t2 t) -> fspec t1 upd pairs empty wf norm -> fspec t2 upd pairs empty wf norm.
Proof.
  intros E [H1 H2 H3 H4 H5 H6 H7]. constructor; auto.
  - intros p a a' Ht. apply H3. now apply E.
  - intros a p Ha Hp. apply E. eauto.
Qed.
Lemma fdup_types {A} (t1 t2 : byte -> Prop) (upd : pair -> A -> res ierr A) :
  (forall t, t1 t <-> t2 t) -> fdup t1 upd -> fdup t2 upd.
Proof.
  intros E (h & H1 & H2 & H3). exists h. repeat apply conj; auto.
  - intros p a a' Ht. apply H1. now apply E.
  - intros k p a a' Ht. apply H2. now apply E.
  - intros p a Ht. apply H3. now apply E.
Qed.
Lemma fcomm_types {A} (t1 t2 : byte -> Prop) (upd : pair -> A -> res ierr A) wf :
  (forall t, t1 t <-> t2 t) -> fcomm t1 upd wf -> fcomm t2 upd wf.
Proof. intros E H p q a b c Hp Hq. apply H; now apply E. Qed.
Lemma fraw_types {A} (t1 t2 : byte -> Prop) (upd : pair -> A -> res ierr A) pairs :
  (forall t, t1 t <-> t2 t) -> fraw t1 upd pairs -> fraw t2 upd pairs.
Proof. intros E H p a a' Hp. apply H. now apply E. Qed.
Lemma fdup_none {A} (upd : pair -> A -> res ierr A) : fdup (fun _ => False) upd.
Proof. exists (fun _ _ => False). repeat apply conj; tauto. Qed.
Lemma fcomm_none {A} (upd : pair -> A -> res ierr A) wf : fcomm (fun _ => False) upd wf.
Proof. intros p q a b c []. Qed.

(** ** Decoding loops *)
Section Decode.
Context {S E : Type} (ins : pair -> S -> res ierr S) (inj_ : ierr -> E) (dpe : serr -> E) (init : S).

Lemma dec_map_iff bs s rest :
  dec_map (fun p s => map_err inj_ (ins p s)) dpe (Datatypes.S (length bs)) init bs = Ok (s, rest)
  <-> exists l, bs = ser_pairs l ++ rest /\ Forall wf_pair l /\ ins_all ins l init = Ok s.
Proof.
  split.
  - intros H. apply dec_map_inv in H as (l & H1 & H2 & H3). exists l. repeat split; auto.
    rewrite ins_all_map_err in H3. now apply map_err_ok in H3.
  - intros (l & -> & H2 & H3). rewrite dec_map_pairs; auto.
    + rewrite ins_all_map_err, H3. reflexivity.
    + apply ser_pairs_length_gt.
Qed.
End Decode.

(** ** Transfer along functions that accept the same pairs *)
Section Equiv.
Context {A : Type} (types : byte -> Prop) (upd upd' : pair -> A -> res ierr A).
Hypothesis Heq : forall p a a', types (ptype p) -> (upd p a = Ok a' <-> upd' p a = Ok a').

Lemma fspec_equiv pairs empty wf norm :
  (forall p a, upd' p a <> Panic) ->
  fspec types upd pairs empty wf norm -> fspec types upd' pairs empty wf norm.
Proof.
  intros Hnp [H1 H2 H3 H4 H5 H6 H7].
  assert (G : forall l, Forall (fun p => types (ptype p)) l -> forall s s', ins_all upd l s = Ok s' -> ins_all upd' l s = Ok s').
  { induction 1 as [|p l Hp Hl IH]; intros s s' H; cbn [ins_all] in *; auto.
    apply bind_ok in H as (x & Hx & H). apply Heq in Hx; auto. rewrite Hx. cbn [bind]. auto. }
  constructor; auto.
  - intros a Ha. apply G; auto. apply Forall_forall. intros p Hp. eauto.
  - intros p a a' Ht Hp Ha E. apply Heq in E; eauto.
Qed.
Lemma fdup_equiv : fdup types upd -> fdup types upd' .
Proof.
  intros (h & H1 & H2 & H3). exists h. repeat apply conj.
  - intros p a a' Ht E. apply Heq in E; eauto.
  - intros k p a a' Ht Hh E. apply Heq in E; eauto.
  - intros p a Ht Hh. specialize (H3 p a Ht Hh). destruct (upd' p a) eqn:E; auto.
    apply Heq in E; auto. rewrite E in H3. discriminate.
Qed.
Lemma fcomm_equiv wf : fcomm types upd wf -> fcomm types upd' wf.
Proof.
  intros H p q a b c Hp Hq Ha Hwp Hwq E1 E2. apply Heq in E1; auto. apply Heq in E2; auto.
  destruct (H p q a b c) as (b' & F1 & F2); auto. exists b'. split; now apply Heq.
Qed.
Lemma fraw_equiv pairs : fraw types upd pairs -> fraw types upd' pairs.
Proof. intros H p a a' Hp E. apply Heq in E; auto. Qed.
End Equiv.

(** A field some of whose key types are excluded. *)
Section Guard.
Context {A : Type} (types types' : byte -> Prop) (excl : byte -> bool) (e : pair -> ierr)
  (upd : pair -> A -> res ierr A).
Hypothesis Ht : forall t, types t <-> types' t /\ excl t = false.
Definition guarded (p : pair) (a : A) : res ierr A := if excl (ptype p) then Err (e p) else upd p a.

Lemma guarded_ok p a a' : types' (ptype p) -> guarded p a = Ok a' -> types (ptype p) /\ upd p a = Ok a'.
Proof.
  unfold guarded. intros H1 H2. destruct (excl (ptype p)) eqn:E; [discriminate|]. split; auto. apply Ht. auto.
Qed.
Lemma guarded_intro p a : types (ptype p) -> guarded p a = upd p a.
Proof. unfold guarded. intros H. apply Ht in H as [_ ->]. reflexivity. Qed.

Lemma fspec_guard pairs empty wf norm :
  fspec types upd pairs empty wf norm -> fspec types' guarded pairs empty wf norm.
Proof.
  intros [H1 H2 H3 H4 H5 H6 H7].
  assert (G : forall l, Forall (fun p => types (ptype p)) l -> forall s, ins_all guarded l s = ins_all upd l s).
  { induction 1 as [|p l Hp Hl IH]; intros s; cbn [ins_all]; auto.
    rewrite guarded_intro by assumption. destruct (upd p s); cbn [bind]; auto. }
  constructor; auto.
  - intros a Ha. rewrite G; auto. apply Forall_forall. intros p Hp. eauto.
  - intros p a a' Hp Hw Ha E. apply guarded_ok in E as [E1 E2]; eauto.
  - intros p a. unfold guarded. destruct (excl _); [discriminate|]. apply H4.
  - intros a p Ha Hp. apply H6 in Hp; auto. now apply Ht.
Qed.
Lemma fdup_guard : fdup types upd -> fdup types' guarded.
Proof.
  intros (h & H1 & H2 & H3). exists h. repeat apply conj.
  - intros p a a' Hp E. apply guarded_ok in E as [E1 E2]; eauto.
  - intros k p a a' Hp Hh E. apply guarded_ok in E as [E1 E2]; eauto.
  - intros p a Hp Hh. unfold guarded. destruct (excl (ptype p)) eqn:E; [reflexivity|].
    apply H3; auto. apply Ht. auto.
Qed.
Lemma fcomm_guard wf : fcomm types upd wf -> fcomm types' guarded wf.
Proof.
  intros H p q a b c Hp Hq Ha Hwp Hwq E1 E2.
  apply guarded_ok in E1 as [Tp E1]; auto. apply guarded_ok in E2 as [Tq E2]; auto.
  destruct (H p q a b c) as (b' & F1 & F2); auto. exists b'. now rewrite !guarded_intro.
Qed.
Lemma fraw_guard pairs : fraw types upd pairs -> fraw types' guarded pairs.
Proof. intros H p a a' Hp E. apply guarded_ok in E as [E1 E2]; auto. Qed.
End Guard.

(** ** Taproot trees *)
Section Tree.
Context `{X : Ext} {L : ExtLaws X}.

(** The tree read back from the bytes of a tree: its leaves may come in another order. *)
Definition tt_norm (t : taptree) : taptree :=
  match de_taptree (ser_taptree t) with Ok t' => t' | _ => t end.

Lemma tt_norm_spec t : wf_taptree t ->
  de_taptree (ser_taptree t) = Ok (tt_norm t) /\ ni_hash (tt_norm t) = ni_hash t /\ wf_taptree (tt_norm t).
Proof.
  intros H. destruct (taptree_roundtrip t H) as (t' & E & E2 & E3 & _). unfold tt_norm. rewrite E. auto.
Qed.

Lemma taptree_fspec t :
  fspec (eq t) (ins_opt de_taptree) (opt_pairs t ser_taptree) None (opt_all wf_taptree) (option_map tt_norm).
Proof.
  apply opt_fspec_n.
  - intros a Ha. now apply tt_norm_spec.
  - intros a [_ Ha]. lims. lia.
  - intros b a Hb H. now apply de_taptree_wf in H as [H _].
  - apply de_taptree_nopanic.
Qed.
End Tree.

(** Decidable facts about the lists of fields. *)
Fixpoint nodupb {F} (dec : forall a b : F, {a = b} + {a <> b}) (l : list F) : bool :=
  match l with
  | [] => true
  | x :: r => negb (if in_dec dec x r then true else false) && nodupb dec r
  end.
Lemma NoDup_nodup_dec {F} (dec : forall a b : F, {a = b} + {a <> b}) l : nodupb dec l = true -> NoDup l.
Proof.
  induction l as [|x r IH]; cbn; intros H; constructor; apply andb_true_iff in H as [H1 H2]; auto.
  destruct (in_dec dec x r); [discriminate|assumption].
Qed.
Lemma in_dec_true {F} (dec : forall a b : F, {a = b} + {a <> b}) x l :
  (if in_dec dec x l then true else false) = true -> In x l.
Proof. destruct (in_dec dec x l); [auto|discriminate]. Qed.

(** The key types of a field, from the definition of [slot]. *)
Ltac slot_tac slot F :=
  unfold slot; rewrite ?F; cbn [andb]; split;
  [ intros <-; rewrite ?F; reflexivity
  | intros H;
    repeat match type of H with
      | (if ?b then _ else _) = _ =>
          let E := fresh "E" in destruct b eqn:E; [try discriminate H; apply beq_eq in E; now subst|]
      end; discriminate H ].
Ltac slot_tac2 slot F :=
  unfold slot; rewrite ?F; cbn [andb]; split;
  [ intros [<-|<-]; rewrite ?F; reflexivity
  | intros H;
    repeat match type of H with
      | (if ?b then _ else _) = _ =>
          let E := fresh "E" in destruct b eqn:E; [try discriminate H; apply beq_eq in E; subst; auto|]
      end; discriminate H ].
Ltac slot_off slot F :=
  unfold slot; rewrite ?F; cbn [andb]; intros H;
    repeat match type of H with
      | (if ?b then _ else _) = _ => destruct b; [discriminate H|]
      end; discriminate H.

(** Facts about combining (src/v2/mod.rs:675-687 and the [combine] functions of the maps). *)
From Coq Require Import Permutation.
From Verif Require Import Base OMap Consensus ConsensusFacts Ext Raw RawFacts TapTree TapTreeFacts
  Serialize SerializeFacts MapCodec MapFacts V2Global V2Input V2Output V2Psbt
  V2OutputFacts V2InputFacts V2GlobalFacts SpecCodec SpecCodecFacts SpecPsbt V2PsbtFacts V2CodecFacts
  V2PairFacts V2Roles SpecRoles V2RolesFacts SpecCombine.
Local Open Scope N_scope.

(** ** Laws of combining one field; [R a b c]: combining [a] with [b] yields [c]. *)
Definition c_from {A} (pairs : A -> list pair) (R : A -> A -> A -> Prop) : Prop :=
  forall a b c p, R a b c -> In p (pairs c) -> In p (pairs a) \/ In p (pairs b).
Definition c_left {A} (pairs : A -> list pair) (R : A -> A -> A -> Prop) : Prop :=
  forall a b c k, R a b c -> In k (keys (pairs a)) -> In k (keys (pairs c)).
Definition c_right {A} (pairs : A -> list pair) (R : A -> A -> A -> Prop) : Prop :=
  forall a b c k, R a b c -> In k (keys (pairs b)) -> In k (keys (pairs c)).
Definition c_wf {A} (wf : A -> Prop) (R : A -> A -> A -> Prop) : Prop :=
  forall a b c, R a b c -> wf a -> wf b -> wf c.

(** The relations that occur. *)
Definition r_keep {A} (a b c : A) : Prop := c = a.
Definition r_opt {A} (a b c : option A) : Prop := c = comb_opt a b.
Definition r_map {K V} (sk : K -> list N) (a b c : list (K * V)) : Prop := c = comb_map sk a b.
(** The non-witness utxo may be dropped. *)
Definition r_drop {A} (a b c : option A) : Prop := c = None \/ c = comb_opt a b.

Section Maps.
Context {K V : Type} (sk : K -> list N).
Hypothesis sk_inj : forall a b, sk a = sk b -> a = b.

Lemma m_put_in_inv k v (m : list (K * V)) e : In e (m_put sk k v m) -> e = (k, v) \/ In e m.
Proof.
  induction m as [|[k' v'] r IH]; cbn.
  - intros [<-|[]]. auto.
  - destruct (lex (sk k) (sk k')); cbn; intros [<-|H]; auto. apply IH in H as [H|H]; auto.
Qed.
Lemma m_extend_in_inv (l : list (K * V)) : forall m e, In e (m_extend sk m l) -> In e m \/ In e l.
Proof.
  unfold m_extend. induction l as [|[k v] l IH]; cbn [fold_left fst snd]; auto. intros m e H.
  apply IH in H as [H|H]; [|right; now right]. apply m_put_in_inv in H as [->|H]; [right; now left|auto].
Qed.
Lemma m_extend_keys (l : list (K * V)) : forall m x, In x (map fst (m_extend sk m l)) <-> In x (map fst m) \/ In x (map fst l).
Proof.
  unfold m_extend. induction l as [|[k v] l IH]; intros m x; cbn [fold_left fst snd].
  - cbn. tauto.
  - rewrite IH, (m_put_keys _ sk_inj). cbn. intuition.
Qed.
Lemma m_extend_forall (P : K * V -> Prop) l : forall m, Forall P m -> Forall P l -> Forall P (m_extend sk m l).
Proof.
  unfold m_extend. induction l as [|[k v] l IH]; intros m Hm Hl; cbn [fold_left fst snd]; auto.
  inv Hl. apply IH; auto. apply m_put_forall; auto.
Qed.
Lemma comb_map_self (m : list (K * V)) : m_sorted sk m -> comb_map sk m m = m.
Proof.
  intros H. apply (m_ext _ sk_inj); auto.
  - apply m_extend_is_sorted; auto.
  - intros k. unfold comb_map. rewrite (m_get_extend _ sk_inj) by assumption. destruct (m_get sk k m); reflexivity.
Qed.

(** Maps serialized entry by entry. *)
Context (entry : K * V -> pair).
Lemma in_entries_map e (m : list (K * V)) : In e m -> In (entry e) (map entry m).
Proof. apply in_map. Qed.
Hypothesis entry_key : forall k v v', p_key (entry (k, v)) = p_key (entry (k, v')).

Lemma entries_keys k (m : list (K * V)) x : In x (map fst m) -> p_key (entry (x, k)) = p_key (entry (x, k)) ->
  In (p_key (entry (x, k))) (keys (map entry m)).
Proof.
  intros H _. apply in_map_iff in H as ([x' v] & E & H). cbn in E. subst x'.
  unfold keys. rewrite map_map. apply in_map_iff. exists (x, v). split; auto.
Qed.
Lemma map_from : c_from (map entry) (r_map sk).
Proof.
  intros a b c p -> H. apply in_map_iff in H as (e & <- & H). apply m_extend_in_inv in H as [H|H]; [left|right]; now apply in_map.
Qed.
Lemma map_left : c_left (map entry) (r_map sk).
Proof.
  intros a b c k -> H. unfold keys in H. rewrite map_map in H. apply in_map_iff in H as ([x v] & <- & H).
  apply entries_keys; auto. apply m_extend_keys. left. apply (in_map fst) in H. exact H.
Qed.
Lemma map_right : c_right (map entry) (r_map sk).
Proof.
  intros a b c k -> H. unfold keys in H. rewrite map_map in H. apply in_map_iff in H as ([x v] & <- & H).
  apply entries_keys; auto. apply m_extend_keys. right. apply (in_map fst) in H. exact H.
Qed.
Lemma wf_map_comb (wfk : K -> Prop) (wfv : V -> Prop) : c_wf (wf_map sk wfk wfv) (r_map sk).
Proof.
  intros a b c -> [H1 H2] [H3 H4]. split; [apply m_extend_is_sorted; auto|]. now apply m_extend_forall.
Qed.
End Maps.

Section Fields.
Context {A : Type} (t : byte) (ser : A -> bytes).

Lemma opt_from : c_from (opt_pairs t ser) r_opt.
Proof. intros [a|] b c p -> H; cbn in H; auto. Qed.
Lemma opt_left : c_left (opt_pairs t ser) r_opt.
Proof. intros [a|] b c p -> H; cbn in H |- *; tauto. Qed.
Lemma opt_right : c_right (opt_pairs t ser) r_opt.
Proof. intros [a|] [b|] c p -> H; cbn in H |- *; tauto. Qed.
Lemma opt_wf (wf : A -> Prop) : c_wf (opt_all wf) r_opt.
Proof. intros [a|] [b|] c ->; cbn; auto. Qed.
Lemma drop_from : c_from (opt_pairs t ser) r_drop.
Proof. intros a b c p [->|H]; [intros []|]. now apply opt_from. Qed.
Lemma drop_wf (wf : A -> Prop) : c_wf (opt_all wf) r_drop.
Proof. intros a b c [->|H]; [cbn; auto|]. now apply opt_wf. Qed.
End Fields.

Lemma keep_from {A} (pairs : A -> list pair) : c_from pairs r_keep.
Proof. intros a b c p ->. auto. Qed.
Lemma keep_left {A} (pairs : A -> list pair) : c_left pairs r_keep.
Proof. intros a b c p ->. auto. Qed.
Lemma keep_wf {A} (wf : A -> Prop) : c_wf wf r_keep.
Proof. intros a b c ->. auto. Qed.
(** A field that always has the same keys. *)
Lemma fixed_right {A} (pairs : A -> list pair) : (forall a b, keys (pairs a) = keys (pairs b)) -> c_right pairs r_keep.
Proof. intros H a b c k -> Hk. now rewrite (H a b). Qed.

(** Fields of a feature. *)
Lemma off_from {A} (b : bool) (pairs : A -> list pair) R : c_from pairs R -> c_from (fun a => if b then pairs a else []) R.
Proof. intros H. destruct b; auto. intros ? ? ? ? ? []. Qed.
Lemma off_left {A} (b : bool) (pairs : A -> list pair) R : c_left pairs R -> c_left (fun a => if b then pairs a else []) R.
Proof. intros H. destruct b; auto. intros ? ? ? ? ? []. Qed.
Lemma off_right {A} (b : bool) (pairs : A -> list pair) R : c_right pairs R -> c_right (fun a => if b then pairs a else []) R.
Proof. intros H. destruct b; auto. intros ? ? ? ? ? []. Qed.

(** ** From fields to maps *)
Section Frame.
Context {S F : Type} (fty : F -> Type) (get : forall f, S -> fty f)
  (pairs : forall f, fty f -> list pair) (order : list F) (R : forall f, fty f -> fty f -> fty f -> Prop).
Hypothesis Oall : forall f, In f order.
Context (a b c : S).
Hypothesis HR : forall f, R f (get f a) (get f b) (get f c).

Lemma frame_from p : (forall f, c_from (pairs f) (R f)) -> In p (spairs fty get pairs order c) ->
  In p (spairs fty get pairs order a) \/ In p (spairs fty get pairs order b).
Proof.
  intros Hf Hp. apply in_flat_map in Hp as (f & Ho & Hp). destruct (Hf f _ _ _ _ (HR f) Hp) as [H|H]; [left|right];
    apply in_flat_map; eauto.
Qed.
Lemma spairs_key s k : In k (keys (spairs fty get pairs order s)) <-> exists f, In k (keys (pairs f (get f s))).
Proof.
  unfold keys, spairs. rewrite in_map_iff. split.
  - intros (p & <- & H). apply in_flat_map in H as (f & _ & H). exists f. now apply in_map.
  - intros (f & H). apply in_map_iff in H as (p & <- & H). exists p. split; auto. apply in_flat_map. eauto.
Qed.
Lemma frame_left k f : c_left (pairs f) (R f) -> In k (keys (pairs f (get f a))) -> In k (keys (spairs fty get pairs order c)).
Proof. intros H Hk. apply spairs_key. exists f. eapply H; eauto. Qed.
Lemma frame_right k f : c_right (pairs f) (R f) -> In k (keys (pairs f (get f b))) -> In k (keys (spairs fty get pairs order c)).
Proof. intros H Hk. apply spairs_key. exists f. eapply H; eauto. Qed.
End Frame.

Lemma opt_pairs_key {A} t (ser : A -> bytes) o k : In k (keys (opt_pairs t ser o)) <-> k = Key t [] /\ o <> None.
Proof. destruct o; cbn; split; intros H; intuition; congruence. Qed.

(** ** Union of maps without conflict *)

Lemma nodup_keys_eq l p q : NoDup (keys l) -> In p l -> In q l -> p_key p = p_key q -> p = q.
Proof.
  unfold keys. induction l as [|r l IH]; intros Hn Hp Hq E; [destruct Hp|]. cbn in Hn. inv Hn.
  destruct Hp as [->|Hp], Hq as [->|Hq]; auto.
  - exfalso. apply H1. rewrite E. now apply in_map.
  - exfalso. apply H1. rewrite <- E. now apply in_map.
Qed.
Lemma pair_eq p q : p_key p = p_key q -> p_value p = p_value q -> p = q.
Proof. destruct p, q. cbn. congruence. Qed.
Lemma keys_nodup l : NoDup (keys l) -> NoDup l.
Proof. apply NoDup_map_inv. Qed.

Lemma union_in la lb lc : NoDup (keys la) -> NoDup (keys lb) -> no_conflict la lb ->
  (forall p, In p lc -> In p la \/ In p lb) ->
  (forall k, In k (keys la) \/ In k (keys lb) -> In k (keys lc)) ->
  forall p, In p lc <-> In p la \/ In p lb.
Proof.
  intros Ha Hb Hn H1 H2 p. split; auto. intros H.
  assert (Hk : In (p_key p) (keys lc)) by (apply H2; destruct H; [left|right]; now apply in_map).
  apply in_map_iff in Hk as (q & E & Hq). assert (p = q) as ->; auto.
  destruct (H1 _ Hq) as [Hq'|Hq'], H as [H|H].
  - apply (nodup_keys_eq la); auto.
  - symmetry. apply pair_eq; auto.
  - apply pair_eq; [congruence|]. apply (Hn p q); auto.
  - apply (nodup_keys_eq lb); auto.
Qed.
Lemma no_conflict_sym la lb : no_conflict la lb -> no_conflict lb la.
Proof. intros H p q Hp Hq E. symmetry. apply (H q p); auto. Qed.
Lemma union_perm la lb lc ld : NoDup (keys la) -> NoDup (keys lb) -> NoDup (keys lc) -> NoDup (keys ld) -> no_conflict la lb ->
  (forall p, In p lc -> In p la \/ In p lb) ->
  (forall k, In k (keys la) \/ In k (keys lb) -> In k (keys lc)) ->
  (forall p, In p ld -> In p lb \/ In p la) ->
  (forall k, In k (keys lb) \/ In k (keys la) -> In k (keys ld)) -> Permutation lc ld.
Proof.
  intros Ha Hb Hc Hd Hn H1 H2 H3 H4. apply NoDup_Permutation; [now apply keys_nodup..|].
  intros p. rewrite (union_in la lb lc), (union_in lb la ld) by auto using no_conflict_sym. tauto.
Qed.

(** At most one pair of a type whose keys have no key data. *)
Lemma filter_one (P : pair -> bool) k l : NoDup (keys l) -> (forall p, In p l -> P p = true -> p_key p = k) ->
  (length (filter P l) <= 1)%nat.
Proof.
  unfold keys. induction l as [|p l IH]; intros Hn H; cbn; auto. cbn in Hn. inv Hn. destruct (P p) eqn:E; cbn.
  - assert (filter P l = []) as ->; auto. rewrite <- (filter_ext_in (fun _ => false)).
    + clear. induction l; auto.
    + intros q Hq. destruct (P q) eqn:Eq; auto. exfalso. apply H2. rewrite (H p), <- (H q) by (cbn; auto). now apply in_map.
  - apply IH; auto. intros q Hq. apply H. now right.
Qed.

Lemma one_type t (p : pair) : beq (k_type (p_key p)) t || false = true -> ptype p = t.
Proof. rewrite Bool.orb_false_r. intros H. now apply beq_eq in H. Qed.
Lemma spairs_slot {S F : Type} (fty : F -> Type) (get : forall f, S -> fty f) upd (slot : byte -> F)
  (pairs : forall f, fty f -> list pair) order empty wf norm
  (Sp : forall f, fspec (fun t => slot t = f) (upd f) (pairs f) (empty f) (wf f) (norm f)) s p :
  swf fty get wf s -> In p (spairs fty get pairs order s) -> forall t, ptype p = t ->
  exists f, slot t = f /\ In p (pairs f (get f s)).
Proof.
  intros Hw Hp t Et. apply in_flat_map in Hp as (f & _ & Hp). exists f. split; auto.
  rewrite <- Et. exact (fs_ty _ _ _ _ _ _ (Sp f) _ _ (Hw f) Hp).
Qed.

Section Facts.
Context `{X : Ext} {L : ExtLaws X} `{C : Cfg}.

(** ** Outputs *)
Definition oR (f : ofield) : oty f -> oty f -> oty f -> Prop :=
  match f return oty f -> oty f -> oty f -> Prop with
  | OAmount => r_keep
  | OScriptPubkey => r_keep
  | ORedeemScript => r_opt
  | OWitnessScript => r_opt
  | OBip32 => r_map bkey
  | OTapInternalKey => r_opt
  | OTapTree => r_opt
  | OTapKeyOrigins => r_map bkey
  | OSpInfo => r_opt
  | OSpLabel => r_opt
  | OProprietaries => r_map sk_propkey
  | OUnknowns => r_map sk_key
  end.

Lemma bkey_inj' a b : bkey a = bkey b -> a = b.
Proof. apply bkey_inj. Qed.

Lemma output_combine_ok a b c : output_combine a b = Ok c ->
  out_amount a = out_amount b /\ out_script_pubkey a = out_script_pubkey b /\ forall f, oR f (oget f a) (oget f b) (oget f c).
Proof.
  unfold output_combine. destruct (out_amount a =? out_amount b) eqn:E1; cbn [negb fail_if bind]; [|discriminate].
  destruct (bytes_eqb _ _) eqn:E2; cbn [negb fail_if bind]; [|discriminate].
  intros H. apply Ok_inj in H. subst c. split; [lia|]. split; [now apply bytes_eqb_eq|]. intros f; destruct f; reflexivity.
Qed.
Lemma output_combine_iff a b : (exists c, output_combine a b = Ok c) <-> out_amount a = out_amount b /\ out_script_pubkey a = out_script_pubkey b.
Proof.
  split; [intros (c & H); apply output_combine_ok in H; tauto|]. intros [E1 E2]. unfold output_combine. rewrite E1, E2, N.eqb_refl.
  rewrite (proj2 (bytes_eqb_eq _ _) eq_refl). cbn. eauto.
Qed.

Lemma map_pairs_entry {K V} t (sk : K -> bytes) (sv : V -> bytes) :
  map_pairs t sk sv = map (fun kv => Pair (Key t (sk (fst kv))) (sv (snd kv))).
Proof. reflexivity. Qed.

Lemma ofrom f : c_from (ofpairs f) (oR f).
Proof.
  destruct f; cbn [ofpairs oR oty];
    first [apply keep_from|apply opt_from|apply off_from, opt_from|exact (map_from _ _)].
Qed.
Lemma oleft f : c_left (ofpairs f) (oR f).
Proof.
  destruct f; cbn [ofpairs oR oty];
    first [apply keep_left|apply opt_left|apply off_left, opt_left|
           apply (map_left bkey bkey_inj'); reflexivity|apply (map_left sk_propkey sk_propkey_inj); reflexivity|
           apply (map_left sk_key sk_key_inj); reflexivity].
Qed.
Lemma oright f : c_right (ofpairs f) (oR f).
Proof.
  destruct f; cbn [ofpairs oR oty];
    first [apply fixed_right; reflexivity|apply opt_right|apply off_right, opt_right|
           apply (map_right bkey bkey_inj'); reflexivity|apply (map_right sk_propkey sk_propkey_inj); reflexivity|
           apply (map_right sk_key sk_key_inj); reflexivity].
Qed.

Lemma off_wf {A} (b : bool) (wf : list A -> Prop) (R : list A -> list A -> list A -> Prop) :
  c_wf wf R -> (forall c, R [] [] c -> c = []) -> c_wf (fun a => if b then wf a else a = []) R.
Proof. intros H H0. destruct b; auto. intros x y z Hr -> ->. auto. Qed.
Lemma off_opt_wf {A} (b : bool) (wf : A -> Prop) :
  c_wf (fun a => if b then opt_all wf a else a = None) r_opt.
Proof. destruct b; [apply opt_wf|]. intros x y z -> -> ->. auto. Qed.
Lemma comb_map_nil {K V} (sk : K -> list N) (a b : list (K * V)) : comb_map sk a b = [] <-> a = [] /\ b = [].
Proof.
  split; [|now intros [-> ->]]. unfold comb_map, m_extend. revert a. induction b as [|[k v] b IH]; intros a; cbn [fold_left fst snd].
  - auto.
  - intros H. apply IH in H as [H _]. now apply m_put_nonempty in H.
Qed.
Lemma preimages_comb n h : c_wf (wf_preimages n h) (r_map bkey).
Proof.
  intros a b c -> [H1 H2] [H3 H4]. split; [apply (m_extend_is_sorted bkey bkey_inj); auto|]. now apply m_extend_forall.
Qed.
Ltac fields_wf :=
  first [apply keep_wf|apply opt_wf|apply drop_wf|apply off_opt_wf|apply preimages_comb
        |apply (wf_map_comb bkey bkey_inj)|apply (wf_map_comb sk_propkey sk_propkey_inj)
        |apply (wf_map_comb sk_key sk_key_inj)|apply (wf_map_comb sk_pubkey sk_pubkey_inj)
        |apply (wf_map_comb sk_xleaf sk_xleaf_inj)|apply (wf_map_comb sk_controlblock sk_controlblock_inj)
        |apply off_wf; [apply (wf_map_comb bkey bkey_inj)|intros c ->; reflexivity]].

Lemma owf f : c_wf (ofwf f) (oR f).
Proof. destruct f; cbn [ofwf oR oty]; fields_wf. Qed.

Lemma output_combine_wf a b c : output_combine a b = Ok c -> wf_output a -> wf_output b -> wf_output c.
Proof.
  intros H Ha Hb. apply output_combine_ok in H as (E1 & E2 & HR).
  apply wf_output_iff in Ha as [Ha Ca], Hb as [Hb Cb]. apply wf_output_iff. split.
  - intros f. exact (owf f _ _ _ (HR f) (Ha f) (Hb f)).
  - apply output_check_iff in Ca as (A1 & A2 & A3), Cb as (B1 & B2 & B3). apply output_check_iff.
    pose proof (HR OAmount) as R1. pose proof (HR OScriptPubkey) as R2. pose proof (HR OSpInfo) as R3. pose proof (HR OSpLabel) as R4.
    cbn in R1, R2, R3, R4. unfold r_keep, r_opt in *. rewrite R1, R2, R3, R4. split; auto. split; auto.
    intros F. specialize (A3 F). specialize (B3 F).
    destruct (out_sp_v0_label a), (out_sp_v0_info a), (out_sp_v0_info b); cbn; try discriminate; intros Q; auto.
Qed.
Lemma output_combine_from a b c p : output_combine a b = Ok c -> In p (output_pairs c) -> In p (output_pairs a) \/ In p (output_pairs b).
Proof.
  intros H. apply output_combine_ok in H as (_ & _ & HR). rewrite !opairs_eq. exact (frame_from _ _ _ _ _ a b c HR p ofrom).
Qed.
Lemma output_combine_keys a b c k : output_combine a b = Ok c -> In k (keys (output_pairs a)) \/ In k (keys (output_pairs b)) ->
  In k (keys (output_pairs c)).
Proof.
  intros H. apply output_combine_ok in H as (_ & _ & HR). rewrite !opairs_eq.
  intros [H|H]; apply (spairs_key _ _ _ _ oorder_all) in H as (f & H).
  - exact (frame_left _ _ _ _ _ oorder_all a b c HR k f (oleft f) H).
  - exact (frame_right _ _ _ _ _ oorder_all a b c HR k f (oright f) H).
Qed.

(** Equal up to the order of pairs. *)
Lemma output_perm_eq a b : wf_output a -> wf_output b -> Permutation (output_pairs a) (output_pairs b) -> output_eq a b.
Proof.
  intros Ha Hb Hp. destruct (output_rt a Ha) as (a' & Ra & Na). destruct (output_rt b Hb) as (b' & Rb & Nb).
  assert (Hr : reordered [[x03]; [x04]] (output_pairs a) (output_pairs b)).
  { split; auto. intros ts Hts. left. destruct Hts as [<-|[<-|[]]]; cbn -[output_pairs].
    - apply (filter_one _ (Key x03 []) _ (output_pairs_nodup a Ha)). intros p Hi E. apply wf_output_iff in Ha as [Ha _].
      rewrite opairs_eq in Hi. destruct (spairs_slot _ _ _ _ _ _ _ _ _ ospec a p Ha Hi x03) as (f & Ef & Hf); [now apply one_type|].
      change (oslot x03) with OAmount in Ef. subst f. destruct Hf as [<-|[]]. reflexivity.
    - apply (filter_one _ (Key x04 []) _ (output_pairs_nodup a Ha)). intros p Hi E. apply wf_output_iff in Ha as [Ha _].
      rewrite opairs_eq in Hi. destruct (spairs_slot _ _ _ _ _ _ _ _ _ ospec a p Ha Hi x04) as (f & Ef & Hf); [now apply one_type|].
      change (oslot x04) with OScriptPubkey in Ef. subst f. destruct Hf as [<-|[]]. reflexivity. }
  apply (output_reorder _ _ _ Hr) in Ra. assert (a' = b').
  { destruct Ra as (_ & R1 & _), Rb as (_ & R2 & _). congruence. }
  subst b'. pose proof (onorm_eq _ _ Na Ha) as [E1 E2]. pose proof (onorm_eq _ _ Nb Hb) as [E3 E4].
  split; congruence.
Qed.


(** ** Inputs *)
Definition iR (f : ifield) : ity f -> ity f -> ity f -> Prop :=
  match f return ity f -> ity f -> ity f -> Prop with
  | IPreviousTxid => r_keep
  | ISpentOutputIndex => r_keep
  | ISequence => r_opt
  | IMinTime => r_opt
  | IMinHeight => r_opt
  | INonWitnessUtxo => r_drop
  | IWitnessUtxo => r_opt
  | IPartialSigs => r_map sk_pubkey
  | ISighashType => r_keep
  | IRedeemScript => r_opt
  | IWitnessScript => r_opt
  | IBip32 => r_map bkey
  | IFinalScriptSig => r_opt
  | IFinalScriptWitness => r_opt
  | IRipemd160 => r_map bkey
  | ISha256 => r_map bkey
  | IHash160 => r_map bkey
  | IHash256 => r_map bkey
  | ITapKeySig => r_opt
  | ITapScriptSigs => r_map sk_xleaf
  | ITapScripts => r_map sk_controlblock
  | ITapKeyOrigins => r_map bkey
  | ITapInternalKey => r_opt
  | ITapMerkleRoot => r_opt
  | ISpEcdhShares => r_map bkey
  | ISpDleqProofs => r_map bkey
  | IProprietaries => r_map sk_propkey
  | IUnknowns => r_map sk_key
  end.

Lemma utxo_switch_dec i j : utxo_switch i j \/ ~ utxo_switch i j.
Proof. unfold utxo_switch. destruct (in_witness_utxo i), (in_witness_utxo j); intuition discriminate. Qed.
Lemma combine_utxo_cases i j :
  (utxo_switch i j -> fst (input_combine_utxo i j) = None) /\
  (~ utxo_switch i j -> fst (input_combine_utxo i j) = comb_opt (in_non_witness_utxo i) (in_non_witness_utxo j)) /\
  snd (input_combine_utxo i j) = comb_opt (in_witness_utxo i) (in_witness_utxo j).
Proof.
  unfold input_combine_utxo, utxo_switch. destruct (in_witness_utxo i), (in_witness_utxo j); cbn;
    (split; [|split; [|reflexivity]]); intros H; try reflexivity; try (now destruct H).
Qed.

Lemma input_combine_ok a b c : input_combine a b = Ok c ->
  in_previous_txid a = in_previous_txid b /\ in_spent_output_index a = in_spent_output_index b /\
  (~ utxo_switch a b -> in_non_witness_utxo c = comb_opt (in_non_witness_utxo a) (in_non_witness_utxo b)) /\
  forall f, iR f (iget f a) (iget f b) (iget f c).
Proof.
  unfold input_combine. destruct (bytes_eqb _ _) eqn:E2; cbn [negb fail_if bind]; [|discriminate].
  destruct (_ =? _) eqn:E1; cbn [negb fail_if bind]; [|discriminate].
  intros H. apply Ok_inj in H. destruct (combine_utxo_cases a b) as (U1 & U2 & U3).
  split; [now apply bytes_eqb_eq|]. split; [lia|]. split; [subst c; exact U2|].
  intros f; destruct f; try (subst c; reflexivity).
  - destruct (utxo_switch_dec a b) as [U|U]; [left; subst c; now apply U1|right; subst c; now apply U2].
  - subst c. exact U3.
Qed.
Lemma input_combine_iff a b : (exists c, input_combine a b = Ok c) <->
  in_previous_txid a = in_previous_txid b /\ in_spent_output_index a = in_spent_output_index b.
Proof.
  split; [intros (c & H); apply input_combine_ok in H; tauto|]. intros [E1 E2]. unfold input_combine. rewrite E1, E2, N.eqb_refl.
  rewrite (proj2 (bytes_eqb_eq _ _) eq_refl). cbn [negb fail_if bind]. eauto.
Qed.

Ltac fields_from :=
  first [apply keep_from|apply opt_from|apply drop_from|apply off_from, opt_from
        |exact (map_from _ _)|apply off_from; exact (map_from _ _)].
Ltac maps_left :=
  first [apply (map_left bkey bkey_inj)|apply (map_left sk_propkey sk_propkey_inj)|apply (map_left sk_key sk_key_inj)
        |apply (map_left sk_pubkey sk_pubkey_inj)|apply (map_left sk_xleaf sk_xleaf_inj)
        |apply (map_left sk_controlblock sk_controlblock_inj)]; reflexivity.
Ltac maps_right :=
  first [apply (map_right bkey bkey_inj)|apply (map_right sk_propkey sk_propkey_inj)|apply (map_right sk_key sk_key_inj)
        |apply (map_right sk_pubkey sk_pubkey_inj)|apply (map_right sk_xleaf sk_xleaf_inj)
        |apply (map_right sk_controlblock sk_controlblock_inj)]; reflexivity.

Lemma ifrom f : c_from (ifpairs f) (iR f).
Proof. destruct f; cbn [ifpairs iR ity]; fields_from. Qed.
Lemma ileft f : f <> INonWitnessUtxo -> c_left (ifpairs f) (iR f).
Proof.
  intros H. destruct f; cbn [ifpairs iR ity]; try (now destruct H);
    first [apply keep_left|apply opt_left|maps_left|apply off_left; maps_left].
Qed.
Lemma iright f : f <> INonWitnessUtxo -> f <> ISighashType -> c_right (ifpairs f) (iR f).
Proof.
  intros H H'. destruct f; cbn [ifpairs iR ity]; try (now destruct H); try (now destruct H');
    first [apply fixed_right; reflexivity|apply opt_right|maps_right|apply off_right; maps_right].
Qed.
Lemma iwf f : c_wf (ifwf f) (iR f).
Proof. destruct f; cbn [ifwf iR ity]; fields_wf. Qed.

Lemma input_combine_wf a b c : input_combine a b = Ok c -> wf_input a -> wf_input b -> wf_input c.
Proof.
  intros H Ha Hb. apply input_combine_ok in H as (E1 & E2 & _ & HR).
  apply wf_input_iff in Ha as [Ha Ca], Hb as [Hb Cb]. apply wf_input_iff. split.
  - intros f. exact (iwf f _ _ _ (HR f) (Ha f) (Hb f)).
  - apply input_check_iff in Ca as (A1 & A2 & A3), Cb as (B1 & B2 & B3). apply input_check_iff.
    pose proof (HR IPreviousTxid) as R1. pose proof (HR ISpentOutputIndex) as R2. pose proof (HR ISpEcdhShares) as R3. pose proof (HR ISpDleqProofs) as R4.
    cbn in R1, R2, R3, R4. unfold r_keep, r_map in *. rewrite R1, R2, R3, R4. split; auto. split; auto.
    intros F. specialize (A3 F). specialize (B3 F). rewrite !comb_map_nil. tauto.
Qed.
Lemma input_combine_from a b c p : input_combine a b = Ok c -> In p (input_pairs c) -> In p (input_pairs a) \/ In p (input_pairs b).
Proof.
  intros H. apply input_combine_ok in H as (_ & _ & _ & HR). rewrite !ipairs_eq. exact (frame_from _ _ _ _ _ a b c HR p ifrom).
Qed.
Lemma input_combine_keys_left a b c k : input_combine a b = Ok c -> In k (keys (input_pairs a)) ->
  In k (keys (input_pairs c)) \/ lost_first a b k.
Proof.
  intros H. apply input_combine_ok in H as (_ & _ & HN & HR). rewrite !ipairs_eq.
  intros H; apply (spairs_key _ _ _ _ iorder_all) in H as (f & H).
  destruct (ifield_dec f INonWitnessUtxo) as [->|N1].
  - destruct (utxo_switch_dec a b) as [U|U].
    + right. cbn in H. apply opt_pairs_key in H as [-> _]. now split.
    + left. apply (spairs_key _ _ _ _ iorder_all). exists INonWitnessUtxo. cbn in *. rewrite (HN U).
      refine (opt_left _ _ _ _ _ _ eq_refl H).
  - left. exact (frame_left _ _ _ _ _ iorder_all a b c HR k f (ileft f N1) H).
Qed.
Lemma input_combine_keys_right a b c k : input_combine a b = Ok c -> In k (keys (input_pairs b)) ->
  In k (keys (input_pairs c)) \/ lost_second a b k.
Proof.
  intros H. apply input_combine_ok in H as (_ & _ & HN & HR). rewrite !ipairs_eq.
  intros H; apply (spairs_key _ _ _ _ iorder_all) in H as (f & H).
  destruct (ifield_dec f INonWitnessUtxo) as [->|N1]; [|destruct (ifield_dec f ISighashType) as [->|N2]].
  - destruct (utxo_switch_dec a b) as [U|U].
    + right. cbn in H. apply opt_pairs_key in H as [-> _]. left. now split.
    + left. apply (spairs_key _ _ _ _ iorder_all). exists INonWitnessUtxo. cbn in *. rewrite (HN U).
      refine (opt_right _ _ _ _ _ _ eq_refl H).
  - cbn in H. apply opt_pairs_key in H as [-> _]. pose proof (HR ISighashType) as R1. cbn in R1. unfold r_keep in R1.
    destruct (in_sighash_type a) eqn:E; [left|right; right; now split].
    apply (spairs_key _ _ _ _ iorder_all). exists ISighashType. cbn. rewrite R1. apply opt_pairs_key. split; auto. discriminate.
  - left. exact (frame_right _ _ _ _ _ iorder_all a b c HR k f (iright f N1 N2) H).
Qed.

Lemma input_acc_fun l a b : input_acc l a -> input_acc l b -> a = b.
Proof. intros (_ & R1 & _) (_ & R2 & _). rewrite R1 in R2. now apply Ok_inj in R2. Qed.
Lemma input_perm_eq a b : wf_input a -> wf_input b -> Permutation (input_pairs a) (input_pairs b) -> a = b.
Proof.
  intros Ha Hb Hp. pose proof (input_rt a Ha) as Ra. pose proof (input_rt b Hb) as Rb.
  assert (Hr : reordered [[x0e]; [x0f]] (input_pairs a) (input_pairs b)).
  { split; auto. intros ts Hts. left. destruct Hts as [<-|[<-|[]]]; cbn -[input_pairs].
    - apply (filter_one _ (Key x0e []) _ (input_pairs_nodup a Ha)). intros p Hi E. apply wf_input_iff in Ha as [Ha _].
      rewrite ipairs_eq in Hi. destruct (spairs_slot _ _ _ _ _ _ _ _ _ ispec a p Ha Hi x0e) as (f & Ef & Hf); [now apply one_type|].
      change (islot x0e) with IPreviousTxid in Ef. subst f. destruct Hf as [<-|[]]. reflexivity.
    - apply (filter_one _ (Key x0f []) _ (input_pairs_nodup a Ha)). intros p Hi E. apply wf_input_iff in Ha as [Ha _].
      rewrite ipairs_eq in Hi. destruct (spairs_slot _ _ _ _ _ _ _ _ _ ispec a p Ha Hi x0f) as (f & Ef & Hf); [now apply one_type|].
      change (islot x0f) with ISpentOutputIndex in Ef. subst f. destruct Hf as [<-|[]]. reflexivity. }
  exact (input_acc_fun _ _ _ (input_reorder _ _ _ Hr Ra) Rb).
Qed.

(** ** Xpubs *)
Lemma path_eqb_eq a : forall b, path_eqb a b = true <-> a = b.
Proof.
  induction a as [|x a IH]; intros [|y b]; cbn [path_eqb]; try (split; (reflexivity || discriminate)).
  rewrite Bool.andb_true_iff, IH, N.eqb_eq. split; [intros [-> ->]; auto|]. intros E. inversion E. auto.
Qed.
Lemma skipn_suffix {A} (s l : list A) : (length s <= length l)%nat -> (s = skipn (length l - length s) l <-> suffix s l).
Proof.
  intros H. split.
  - intros E. exists (firstn (length l - length s) l). rewrite E at 2. symmetry. apply firstn_skipn.
  - intros (pre & ->). rewrite app_length. replace (length pre + length s - length s)%nat with (length pre + 0)%nat by lia.
    rewrite skipn_app. replace (length pre + 0 - length pre)%nat with 0%nat by lia.
    rewrite skipn_all2 by lia. reflexivity.
Qed.

(** All cases of one step; [a] is the entry of the map, [b] the new one. *)
Inductive step_case (a b : keysource) : Prop :=
| SCKeep : doc_merge a b (Some a) -> step_case a b
| SCReplace : doc_merge a b (Some b) -> a <> b -> step_case a b
| SCFingerprint : ks_path a = ks_path b -> ks_fp a <> ks_fp b -> step_case a b
| SCPanic : (length (ks_path b) < length (ks_path a))%nat -> ~ suffix (ks_path b) (ks_path a) -> step_case a b
| SCErr : (length (ks_path a) <= length (ks_path b))%nat -> ~ suffix (ks_path a) (ks_path b) -> step_case a b.

Lemma suffix_same_len {A} (s l : list A) : length s = length l -> suffix s l -> s = l.
Proof. intros H (pre & ->). rewrite app_length in H. destruct pre; [reflexivity|cbn in H; lia]. Qed.
Lemma suffix_dec (s l : list N) : suffix s l \/ ~ suffix s l.
Proof.
  destruct (Nat.le_gt_cases (length s) (length l)) as [H|H].
  - destruct (list_eq_dec N.eq_dec s (skipn (length l - length s) l)) as [E|E]; rewrite (skipn_suffix s l H) in E; auto.
  - right. intros (pre & ->). rewrite app_length in H. lia.
Qed.
Lemma step_cases a b : step_case a b.
Proof.
  destruct a as [fa pa], b as [fb pb].
  destruct (Nat.lt_trichotomy (length pa) (length pb)) as [H|[H|H]].
  - destruct (suffix_dec pa pb) as [Q|Q].
    + apply SCReplace; [apply DMSecond; auto|]. intros E. inversion E. subst. lia.
    + apply SCErr; cbn; auto. lia.
  - destruct (list_eq_dec N.eq_dec pa pb) as [E|E].
    + subst pb. destruct (bytes_eqb fa fb) eqn:Ef.
      * apply bytes_eqb_eq in Ef. subst. apply SCKeep, DMEqual. reflexivity.
      * apply bytes_eqb_neq in Ef. apply SCFingerprint; auto.
    + apply SCErr; cbn; [lia|]. intros Q. apply suffix_same_len in Q; auto.
  - destruct (suffix_dec pb pa) as [Q|Q].
    + apply SCKeep, DMFirst; auto.
    + apply SCPanic; auto.
Qed.

(** The model in terms of the cases. *)
Inductive step_result (x : xpub) (a b : keysource) (m : list (xpub * keysource)) : res gcerr (list (xpub * keysource)) -> Prop :=
| SRKeep : doc_merge a b (Some a) -> step_result x a b m (Ok m)
| SRReplace : doc_merge a b (Some b) -> a <> b -> step_result x a b m (Ok (m_put sk_xpub x b m))
| SRFingerprint : ks_path a = ks_path b -> ks_fp a <> ks_fp b -> step_result x a b m (Ok (m_put sk_xpub x b m))
| SRPanic : (length (ks_path b) < length (ks_path a))%nat -> ~ suffix (ks_path b) (ks_path a) -> step_result x a b m Panic
| SRErr : (length (ks_path a) <= length (ks_path b))%nat -> ~ suffix (ks_path a) (ks_path b) ->
    step_result x a b m (Err (GCInconsistentKeySources x)).

Lemma path_neq a b : a <> b -> path_eqb a b = false.
Proof. intros H. destruct (path_eqb a b) eqn:E; auto. apply path_eqb_eq in E. now destruct H. Qed.

Lemma merge_step x a b m : m_get sk_xpub x m = Some a -> step_result x a b m (global_merge_xpub x b m).
Proof.
  intros Hg. unfold global_merge_xpub. rewrite Hg. destruct (step_cases a b) as [H|H N|H H'|H H'|H H'].
  - replace (_ || _) with true; [now apply SRKeep|]. symmetry. inversion H.
    + subst b. apply Bool.orb_true_iff. left. rewrite (proj2 (path_eqb_eq _ _) eq_refl), (proj2 (bytes_eqb_eq _ _) eq_refl). reflexivity.
    + apply Bool.orb_true_iff. right. apply Bool.andb_true_iff. split; [now apply Nat.ltb_lt|].
      apply path_eqb_eq. apply skipn_suffix; auto. lia.
    + subst. lia.
  - assert (Hl : (length (ks_path a) < length (ks_path b))%nat /\ suffix (ks_path a) (ks_path b)).
    { inversion H; subst; auto; try congruence. }
    destruct Hl as [Hl Hs]. replace (_ || _) with false; [|symmetry].
    + replace (length (ks_path b) <? length (ks_path a))%nat with false by (symmetry; apply Nat.ltb_ge; lia).
      rewrite (proj2 (path_eqb_eq _ _)); [now apply SRReplace|]. apply skipn_suffix; auto. lia.
    + rewrite path_neq by (intros E; rewrite E in Hl; lia).
      replace (length (ks_path b) <? length (ks_path a))%nat with false by (symmetry; apply Nat.ltb_ge; lia). reflexivity.
  - rewrite (proj2 (path_eqb_eq _ _) (eq_sym H)).
    rewrite (proj2 (bytes_eqb_neq (ks_fp b) (ks_fp a))) by congruence.
    rewrite H, Nat.ltb_irrefl. cbn [andb orb]. rewrite Nat.sub_diag. cbn [skipn].
    rewrite (proj2 (path_eqb_eq _ _) eq_refl). now apply SRFingerprint.
  - replace (_ || _) with false; [|symmetry].
    + rewrite (proj2 (Nat.ltb_lt _ _) H). now apply SRPanic.
    + rewrite path_neq by (intros E; rewrite E in H; lia). cbn [andb orb].
      rewrite (proj2 (Nat.ltb_lt _ _) H). cbn [andb]. apply path_neq. intros E. apply H'. apply skipn_suffix; auto. lia.
  - replace (length (ks_path b) <? length (ks_path a))%nat with false by (symmetry; apply Nat.ltb_ge; lia).
    cbn [andb]. rewrite Bool.orb_false_r. rewrite (path_neq (ks_path b)) by (intros E; apply H'; exists []; now rewrite E).
    cbn [andb]. rewrite path_neq; [now apply SRErr|]. intros E. apply H'. now apply skipn_suffix.
Qed.

Lemma merge_step_new x b m : m_get sk_xpub x m = None -> global_merge_xpub x b m = Ok (m_put sk_xpub x b m).
Proof. intros H. unfold global_merge_xpub. now rewrite H. Qed.


(** What one successful step does. *)
Lemma merge_step_ok x b m m' : global_merge_xpub x b m = Ok m' ->
  (exists a, m_get sk_xpub x m = Some a /\ m' = m) \/ m' = m_put sk_xpub x b m.
Proof.
  intros H. destruct (m_get sk_xpub x m) as [a|] eqn:E.
  - pose proof (merge_step x a b m E) as S. rewrite H in S. inversion S; subst; eauto.
  - rewrite merge_step_new in H by assumption. apply Ok_inj in H. auto.
Qed.
Lemma merge_in_inv l : forall m m' e, global_merge_xpubs l m = Ok m' -> In e m' -> In e m \/ In e l.
Proof.
  induction l as [|[x b] l IH]; cbn [global_merge_xpubs]; intros m m' e H Hi.
  - apply Ok_inj in H. subst. auto.
  - apply bind_ok in H as (m1 & H1 & H). destruct (IH _ _ _ H Hi) as [Q|Q]; [|right; now right].
    apply merge_step_ok in H1 as [(a & _ & ->)| ->]; auto. apply m_put_in_inv in Q as [->|Q]; auto. right. now left.
Qed.
Lemma merge_keys l : forall m m' x, global_merge_xpubs l m = Ok m' -> (In x (map fst m') <-> In x (map fst m) \/ In x (map fst l)).
Proof.
  induction l as [|[y b] l IH]; cbn [global_merge_xpubs]; intros m m' x H.
  - apply Ok_inj in H. subst. cbn. tauto.
  - apply bind_ok in H as (m1 & H1 & H). rewrite (IH _ _ _ H). cbn. apply merge_step_ok in H1 as [(a & Ha & ->)| ->].
    + apply m_get_in, (in_map fst) in Ha; [|exact sk_xpub_inj]. cbn in Ha. intuition. subst. auto.
    + rewrite (m_put_keys _ sk_xpub_inj). intuition.
Qed.
Lemma merge_sorted l : forall m m', global_merge_xpubs l m = Ok m' -> m_sorted sk_xpub m -> m_sorted sk_xpub m'.
Proof.
  induction l as [|[y b] l IH]; cbn [global_merge_xpubs]; intros m m' H Hs.
  - apply Ok_inj in H. now subst.
  - apply bind_ok in H as (m1 & H1 & H). apply (IH _ _ H). apply merge_step_ok in H1 as [(a & Ha & ->)| ->]; auto.
    apply m_put_sorted; auto. exact sk_xpub_inj.
Qed.

(** The result of merging two key sources that are accepted. *)
Definition merged (a b k : keysource) : Prop :=
  doc_merge a b (Some k) \/ ks_path a = ks_path b /\ ks_fp a <> ks_fp b /\ k = b.

Lemma merge_step_get x b m m' : global_merge_xpub x b m = Ok m' ->
  (forall y, y <> x -> m_get sk_xpub y m' = m_get sk_xpub y m) /\
  (m_get sk_xpub x m = None -> m_get sk_xpub x m' = Some b) /\
  (forall a, m_get sk_xpub x m = Some a -> exists k, m_get sk_xpub x m' = Some k /\ merged a b k).
Proof.
  intros H. split; [|split].
  - intros y Hy. apply merge_step_ok in H as [(a & Ha & ->)| ->]; auto. apply m_get_put_neq; auto. exact sk_xpub_inj.
  - intros E. rewrite merge_step_new in H by assumption. apply Ok_inj in H. subst. apply m_get_put_eq. exact sk_xpub_inj.
  - intros a E. pose proof (merge_step x a b m E) as S. rewrite H in S. inversion S; subst.
    + exists a. split; auto. now left.
    + exists b. split; [apply m_get_put_eq; exact sk_xpub_inj|]. now left.
    + exists b. split; [apply m_get_put_eq; exact sk_xpub_inj|]. right. auto.
Qed.
Lemma merge_get l : forall m m', NoDup (map fst l) -> global_merge_xpubs l m = Ok m' ->
  (forall x, ~ In x (map fst l) -> m_get sk_xpub x m' = m_get sk_xpub x m) /\
  (forall x b, In (x, b) l -> m_get sk_xpub x m = None -> m_get sk_xpub x m' = Some b) /\
  (forall x a b, In (x, b) l -> m_get sk_xpub x m = Some a -> exists k, m_get sk_xpub x m' = Some k /\ merged a b k).
Proof.
  induction l as [|[y b] l IH]; cbn [global_merge_xpubs]; intros m m' Hn H.
  - apply Ok_inj in H. subst. repeat split; auto; intros ? ? []. intros [].
  - apply bind_ok in H as (m1 & H1 & H). cbn in Hn. inv Hn. destruct (IH _ _ H4 H) as (I1 & I2 & I3).
    apply merge_step_get in H1 as (S1 & S2 & S3).
    assert (Hne : forall x b', In (x, b') l -> x <> y). { intros x b' Hi ->. apply H3. now apply (in_map fst) in Hi. }
    split; [|split].
    + intros x Hx. cbn in Hx. rewrite I1 by tauto. apply S1. intros ->. tauto.
    + intros x b' [E|Hi] Hg.
      * inversion E. subst. rewrite I1 by assumption. auto.
      * apply I2; auto. rewrite S1; eauto.
    + intros x a b' [E|Hi] Hg.
      * inversion E. subst. rewrite I1 by assumption. auto.
      * apply I3; auto. rewrite S1; eauto.
Qed.

(** Failures. *)
Lemma merge_fail l : forall m r, NoDup (map fst l) -> global_merge_xpubs l m = r -> is_ok r = false ->
  exists l1 x b l2 a, l = l1 ++ (x, b) :: l2 /\ m_get sk_xpub x m = Some a /\
    (Forall (fun e => forall k, m_get sk_xpub (fst e) m = Some k -> exists k', merged k (snd e) k') l1) /\
    (r = Panic /\ (length (ks_path b) < length (ks_path a))%nat /\ ~ suffix (ks_path b) (ks_path a) \/
     r = Err (GCInconsistentKeySources x) /\ (length (ks_path a) <= length (ks_path b))%nat /\ ~ suffix (ks_path a) (ks_path b)).
Proof.
  induction l as [|[y b] l IH]; cbn [global_merge_xpubs]; intros m r Hn H Hr.
  - subst. discriminate.
  - cbn in Hn. inv Hn. destruct (global_merge_xpub y b m) as [m1|e|] eqn:E; cbn [bind] in *.
    + destruct (IH m1 _ H3 eq_refl Hr) as (l1 & x & b' & l2 & a & -> & Hg & Hf & Hd).
      apply merge_step_get in E as (S1 & S2 & S3).
      exists ((y, b) :: l1), x, b', l2, a. split; auto. split; [|split; auto].
      * rewrite <- S1; auto. intros ->. apply H2. rewrite map_app, in_app_iff. right. now left.
      * constructor.
        -- cbn. intros k Hk. destruct (S3 k Hk) as (k' & _ & Q). eauto.
        -- rewrite Forall_forall in *. intros [x1 k1] Hi k Hk. cbn in *. apply (Hf _ Hi). cbn. rewrite S1; auto.
           intros ->. apply H2. rewrite map_app, in_app_iff. left. now apply (in_map fst) in Hi.
    + destruct (m_get sk_xpub y m) as [a|] eqn:Eg; [|rewrite merge_step_new in E by assumption; discriminate].
      pose proof (merge_step y a b m Eg) as S. rewrite E in S. inversion S. subst.
      exists [], y, b, l, a. split; [reflexivity|]. split; [exact Eg|]. split; [constructor|]. auto.
    + destruct (m_get sk_xpub y m) as [a|] eqn:Eg; [|rewrite merge_step_new in E by assumption; discriminate].
      pose proof (merge_step y a b m Eg) as S. rewrite E in S. inversion S. subst.
      exists [], y, b, l, a. split; [reflexivity|]. split; [exact Eg|]. split; [constructor|]. auto.
Qed.

Lemma merged_first a b : (exists k, merged a b k) <->
  (length (ks_path b) < length (ks_path a))%nat /\ suffix (ks_path b) (ks_path a) \/
  (length (ks_path a) <= length (ks_path b))%nat /\ suffix (ks_path a) (ks_path b).
Proof.
  split.
  - intros (k & [H|(H & _)]).
    + inversion H; subst; auto. * right. split; auto. now exists []. * right. split; auto. lia.
    + right. rewrite H. split; auto. now exists [].
  - intros [[H Q]|[H Q]].
    + exists a. left. now apply DMFirst.
    + destruct (step_cases a b) as [S|S N|S N|S N|S N]; unfold merged; eauto.
      * lia.
      * now destruct N.
Qed.

(** ** The global map *)
Definition gR (f : gfield) : gty f -> gty f -> gty f -> Prop :=
  match f return gty f -> gty f -> gty f -> Prop with
  | GVersion => r_keep
  | GTxVersion => r_keep
  | GFallback => r_keep
  | GCounts => r_keep
  | GFlags => r_keep
  | GXpubs => fun a b c => global_merge_xpubs b a = Ok c
  | GSpEcdhShares => r_map bkey
  | GSpDleqProofs => r_map bkey
  | GProprietaries => r_map sk_propkey
  | GUnknowns => r_map sk_key
  end.

Lemma global_combine_ok a b c : global_combine a b = Ok c ->
  g_version a = g_version b /\ g_tx_version a = g_tx_version b /\
  global_merge_xpubs (g_xpubs b) (g_xpubs a) = Ok (g_xpubs c) /\
  forall f, gR f (gget f (to_gdec a)) (gget f (to_gdec b)) (gget f (to_gdec c)).
Proof.
  unfold global_combine. destruct (g_version a =? g_version b) eqn:E1; cbn [negb fail_if bind]; [|discriminate].
  destruct (g_tx_version a =? g_tx_version b) eqn:E2; cbn [negb fail_if bind]; [|discriminate].
  intros H. apply bind_ok in H as (xs & Hx & H). apply Ok_inj in H. split; [lia|]. split; [lia|]. split; [subst c; exact Hx|].
  intros f; destruct f; subst c; try reflexivity. exact Hx.
Qed.

Lemma xpub_from : c_from (map_pairs x01 ser_xpub ser_keysource) (gR GXpubs).
Proof.
  intros a b c p H Hp. unfold map_pairs in *. apply in_map_iff in Hp as (e & <- & Hp).
  destruct (merge_in_inv _ _ _ _ H Hp) as [Q|Q]; [left|right]; apply in_map_iff; eauto.
Qed.
Lemma xpub_keys a b c k : gR GXpubs a b c ->
  In k (keys (map_pairs x01 ser_xpub ser_keysource a)) \/ In k (keys (map_pairs x01 ser_xpub ser_keysource b)) ->
  In k (keys (map_pairs x01 ser_xpub ser_keysource c)).
Proof.
  intros H Hk. cbn in H.
  assert (Hi : forall m, In k (keys (map_pairs x01 ser_xpub ser_keysource m)) <-> exists x, k = Key x01 (ser_xpub x) /\ In x (map fst m)).
  { intros m. unfold keys, map_pairs. rewrite map_map. split.
    - intros Q. apply in_map_iff in Q as ([x v] & <- & Q). exists x. split; auto. now apply (in_map fst) in Q.
    - intros (x & -> & Q). apply in_map_iff in Q as ([x' v] & E & Q). cbn in E. subst x'. apply in_map_iff. exists (x, v). auto. }
  rewrite !Hi in *. destruct Hk as [(x & E & Q)|(x & E & Q)]; exists x; split; auto; apply (merge_keys _ _ _ x H); auto.
Qed.
Lemma gfrom f : c_from (gfpairs f) (gR f).
Proof. destruct f; cbn [gfpairs gty]; try exact xpub_from; cbn [gR]; fields_from. Qed.
Lemma gleft f : c_left (gfpairs f) (gR f).
Proof.
  destruct f; cbn [gfpairs gty]; try (intros a b c k H Q; exact (xpub_keys a b c k H (or_introl Q)));
    cbn [gR]; first [apply keep_left|maps_left|apply off_left; maps_left].
Qed.
Lemma gwf f : c_wf (gfwf f) (gR f).
Proof.
  destruct f; cbn [gfwf gR gty]; try fields_wf.
  intros a b c H [H1 H2] [H3 H4]. split.
  - now apply (merge_sorted _ _ _ H).
  - rewrite Forall_forall in *. intros e He. destruct (merge_in_inv _ _ _ _ H He); auto.
Qed.

Lemma global_combine_wf a b c : global_combine a b = Ok c -> wf_global a -> wf_global b -> wf_global c.
Proof.
  intros H Ha Hb. apply global_combine_ok in H as (_ & _ & _ & HR).
  apply wf_global_iff in Ha as [Ha Ca], Hb as [Hb Cb]. apply wf_global_iff. split.
  - intros f. exact (gwf f _ _ _ (HR f) (Ha f) (Hb f)).
  - apply global_check_iff in Ca as (v & tv & ic & oc & A1 & A2 & A3 & A4 & A5 & A6 & _), Cb as (_ & _ & _ & _ & _ & _ & _ & _ & _ & B6 & _).
    apply global_check_iff. exists v, tv, ic, oc.
    pose proof (HR GVersion) as R1. pose proof (HR GTxVersion) as R2. pose proof (HR GCounts) as R3.
    pose proof (HR GSpEcdhShares) as R4. pose proof (HR GSpDleqProofs) as R5.
    cbn in R1, R2, R3, R4, R5, A1, A2, A3, A6, B6 |- *. unfold r_keep, r_map in *.
    split; [congruence|]. split; [congruence|]. split; [congruence|]. split; [auto|]. split; [auto|]. split.
    + intros F. specialize (A6 F). specialize (B6 F). rewrite R4, R5, !comb_map_nil. tauto.
    + destruct c; cbn in *. congruence.
Qed.
Lemma global_combine_from a b c p : global_combine a b = Ok c -> In p (global_pairs c) -> In p (global_pairs a) \/ In p (global_pairs b).
Proof.
  intros H. apply global_combine_ok in H as (_ & _ & _ & HR). rewrite !gpairs_eq. exact (frame_from _ _ _ _ _ _ _ _ HR p gfrom).
Qed.
Lemma global_combine_keys_left a b c k : global_combine a b = Ok c -> In k (keys (global_pairs a)) -> In k (keys (global_pairs c)).
Proof.
  intros H. apply global_combine_ok in H as (_ & _ & _ & HR). rewrite !gpairs_eq.
  intros H; apply (spairs_key _ _ _ _ gorder_all) in H as (f & H).
  exact (frame_left _ _ _ _ _ gorder_all _ _ _ HR k f (gleft f) H).
Qed.
Lemma global_combine_keys_right a b c k : global_combine a b = Ok c -> In k (keys (global_pairs b)) ->
  In k (keys (global_pairs c)) \/ k_type k = x03 /\ g_fallback_lock_time a = None.
Proof.
  intros H. apply global_combine_ok in H as (_ & _ & _ & HR). rewrite !gpairs_eq.
  intros H; apply (spairs_key _ _ _ _ gorder_all) in H as (f & H). pose proof (HR f) as R1.
  destruct f; try (left; apply (spairs_key _ _ _ _ gorder_all); match type of H with In _ (keys (gfpairs ?f _)) => exists f end;
    cbn in H |- *; exact H).
  - cbn in H, R1. unfold r_keep in R1. apply opt_pairs_key in H as [-> _].
    destruct (g_fallback_lock_time a) eqn:E; [left|now right].
    apply (spairs_key _ _ _ _ gorder_all). exists GFallback. cbn. rewrite R1. apply opt_pairs_key. split; auto. discriminate.
  - left. apply (spairs_key _ _ _ _ gorder_all). exists GXpubs. exact (xpub_keys _ _ _ k R1 (or_intror H)).
  - left. refine (frame_right _ _ _ _ _ gorder_all _ _ _ HR k GSpEcdhShares _ H). cbn [gfpairs gR gty]. apply off_right; maps_right.
  - left. refine (frame_right _ _ _ _ _ gorder_all _ _ _ HR k GSpDleqProofs _ H). cbn [gfpairs gR gty]. apply off_right; maps_right.
  - left. refine (frame_right _ _ _ _ _ gorder_all _ _ _ HR k GProprietaries _ H). cbn [gfpairs gR gty]. maps_right.
  - left. refine (frame_right _ _ _ _ _ gorder_all _ _ _ HR k GUnknowns _ H). cbn [gfpairs gR gty]. maps_right.
Qed.

Lemma filter_none {A} (P : A -> bool) l : (forall a, In a l -> P a = false) -> filter P l = [].
Proof.
  induction l as [|a l IH]; cbn; auto. intros H. rewrite (H a) by auto. apply IH. auto.
Qed.
Definition count_pair (p : pair) : bool := existsb (beq (k_type (p_key p))) [x04; x05].
Lemma count_pairs_eq g : wf_global g -> filter count_pair (global_pairs g) =
  [Pair (Key x04 []) (ser_varint (g_input_count g)); Pair (Key x05 []) (ser_varint (g_output_count g))].
Proof.
  intros Hw. apply wf_global_iff in Hw as [Hw _]. rewrite gpairs_eq.
  assert (Hf : forall f, f <> GCounts -> filter count_pair (gfpairs f (gget f (to_gdec g))) = []).
  { intros f Nf. apply filter_none. intros p Hp. pose proof (fs_ty _ _ _ _ _ _ (gspec f) _ _ (Hw f) Hp) as Ht. cbn beta in Ht.
    destruct (count_pair p) eqn:E; auto. exfalso. apply Nf. rewrite <- Ht. unfold count_pair in E. cbn [existsb] in E.
    rewrite Bool.orb_false_r in E. apply Bool.orb_true_iff in E as [E|E]; apply beq_eq in E; unfold ptype; rewrite E; reflexivity. }
  unfold spairs, gorder. cbn [flat_map]. rewrite !filter_app.
  rewrite (Hf GVersion), (Hf GTxVersion), (Hf GFallback), (Hf GFlags), (Hf GXpubs), (Hf GSpEcdhShares), (Hf GSpDleqProofs),
    (Hf GProprietaries), (Hf GUnknowns) by discriminate. reflexivity.
Qed.
Lemma perm_two_keys p q p' q' : p_key p <> p_key q' -> Permutation [p; q] [p'; q'] -> p = p' /\ q = q'.
Proof.
  intros N H. apply Permutation_length_2_inv in H as [H|H]; inversion H; subst; auto. now destruct N.
Qed.
Lemma Permutation_filter' {A} (P : A -> bool) l l' : Permutation l l' -> Permutation (filter P l) (filter P l').
Proof.
  induction 1; cbn; auto.
  - destruct (P x); auto.
  - destruct (P x), (P y); auto. apply perm_swap.
  - eapply perm_trans; eauto.
Qed.
Lemma global_perm_eq a b : wf_global a -> wf_global b -> Permutation (global_pairs a) (global_pairs b) -> a = b.
Proof.
  intros Ha Hb Hp. pose proof (global_rt a Ha) as Ra. pose proof (global_rt b Hb) as Rb.
  assert (Hr : reordered [[x04; x05]] (global_pairs a) (global_pairs b)).
  { split; auto. intros ts [<-|[]]. right. change (filter count_pair (global_pairs a) = filter count_pair (global_pairs b)).
    pose proof (Permutation_filter' count_pair _ _ Hp) as Q. rewrite !count_pairs_eq in * by assumption.
    apply perm_two_keys in Q as [Q1 Q2]; [|cbn; discriminate]. now rewrite Q1, Q2. }
  apply (global_reorder _ _ _ Hr) in Ra. destruct Ra as (_ & d & R1 & R2), Rb as (_ & d' & R3 & R4).
  rewrite R1 in R3. apply Ok_inj in R3. subst d'. rewrite R2 in R4. now apply Ok_inj in R4.
Qed.


(** ** Whole PSBTs *)
Lemma combine_zip_ok {E A} (f : A -> A -> res E A) l : forall l' r, combine_zip f l l' = Ok r ->
  length r = length l /\
  forall n c, nth_error r n = Some c -> exists a, nth_error l n = Some a /\
    (forall b, nth_error l' n = Some b -> f a b = Ok c) /\ (nth_error l' n = None -> c = a).
Proof.
  induction l as [|a l IH]; intros l' r H.
  - cbn in H. apply Ok_inj in H. subst. split; auto. intros [|n] c Hc; discriminate.
  - destruct l' as [|b l'].
    + cbn in H. apply Ok_inj in H. subst. split; auto. intros n c Hc. exists c. split; auto. split; auto. intros b Hb. destruct n; discriminate.
    + cbn in H. apply bind_ok in H as (c & Hc & H). apply bind_ok in H as (cs & Hcs & H). apply Ok_inj in H. subst r.
      destruct (IH _ _ Hcs) as [I1 I2]. split; [cbn; lia|]. intros [|n] c' Hn; cbn in *.
      * apply Some_inj in Hn. subst c'. exists a. split; auto. split; [intros b' Hb'; now apply Some_inj in Hb'; subst|discriminate].
      * now apply I2.
Qed.
Lemma combine_zip_total {E A} (f : A -> A -> res E A) (P : A -> A -> Prop) l l' :
  (forall a b, P a b -> exists c, f a b = Ok c) -> Forall2 P l l' -> exists r, combine_zip f l l' = Ok r.
Proof.
  intros Hf. induction 1 as [|a b l l' Hp _ [r IH]]; cbn; [eauto|].
  destruct (Hf _ _ Hp) as [c ->]. cbn. rewrite IH. cbn. eauto.
Qed.
Lemma combine_zip_self {E A} (f : A -> A -> res E A) l : Forall (fun a => f a a = Ok a) l -> combine_zip f l l = Ok l.
Proof. induction 1 as [|a l H _ IH]; cbn; auto. rewrite H. cbn. rewrite IH. reflexivity. Qed.

Lemma map_err_ok {E F A} (g : E -> F) (r : res E A) a : map_err g r = Ok a <-> r = Ok a.
Proof. destruct r; cbn; split; intros H; try discriminate; apply Ok_inj in H; now subst. Qed.

Lemma psbt_combine_ok a b c : psbt_combine a b = Ok c <->
  global_combine (p_global a) (p_global b) = Ok (p_global c) /\
  combine_zip input_combine (p_inputs a) (p_inputs b) = Ok (p_inputs c) /\
  combine_zip output_combine (p_outputs a) (p_outputs b) = Ok (p_outputs c).
Proof.
  unfold psbt_combine. split.
  - intros H. apply bind_ok in H as (g & Hg & H). apply bind_ok in H as (is & Hi & H). apply bind_ok in H as (os & Ho & H).
    apply map_err_ok in Hg, Hi, Ho. apply Ok_inj in H. subst c. auto.
  - intros (-> & -> & ->). cbn. now destruct c.
Qed.

Lemma nth_error_Forall {A} (P : A -> Prop) l : Forall P l <-> forall n a, nth_error l n = Some a -> P a.
Proof.
  rewrite Forall_forall. split.
  - intros H n a Hn. apply H. eapply nth_error_In, Hn.
  - intros H a Ha. apply In_nth_error in Ha as [n Hn]. eauto.
Qed.
Lemma combine_zip_forall {E A} (f : A -> A -> res E A) (P : A -> Prop) l l' r :
  (forall a b c, f a b = Ok c -> P a -> P b -> P c) -> combine_zip f l l' = Ok r -> Forall P l -> Forall P l' -> Forall P r.
Proof.
  intros Hf H Hl Hl'. apply combine_zip_ok in H as [_ H]. rewrite nth_error_Forall in *. intros n c Hn.
  destruct (H n c Hn) as (a & Ha & Hb & Hc). destruct (nth_error l' n) as [b|] eqn:En; [|rewrite (Hc eq_refl); eauto].
  eapply Hf; eauto.
Qed.

Lemma psbt_combine_wf a b c : psbt_combine a b = Ok c -> wf_psbt a -> wf_psbt b -> wf_psbt c.
Proof.
  intros H Ha Hb. apply psbt_combine_ok in H as (Hg & Hi & Ho).
  pose proof (proj1 (combine_zip_ok _ _ _ _ Hi)) as Li. pose proof (proj1 (combine_zip_ok _ _ _ _ Ho)) as Lo.
  assert (Bi : blen (p_inputs c) = blen (p_inputs a)) by (unfold blen; now rewrite Li).
  assert (Bo : blen (p_outputs c) = blen (p_outputs a)) by (unfold blen; now rewrite Lo).
  pose proof (global_combine_ok _ _ _ Hg) as (_ & _ & _ & HR). pose proof (HR GCounts) as R1. cbn in R1. unfold r_keep in R1.
  injection R1 as R1 R2. constructor.
  - eapply global_combine_wf; eauto using wp_global.
  - eapply combine_zip_forall; eauto using wp_inputs, input_combine_wf.
  - eapply combine_zip_forall; eauto using wp_outputs, output_combine_wf.
  - rewrite Bi, R1. apply Ha.
  - rewrite Bo, R2. apply Ha.
  - rewrite Bi. apply Ha.
  - rewrite Bo. apply Ha.
Qed.

(** *** Idempotence *)
Lemma comb_opt_self {A} (a : option A) : comb_opt a a = a.
Proof. now destruct a. Qed.
Lemma input_combine_self i : sorted_input i -> input_combine i i = Ok i.
Proof.
  intros H. unfold input_combine. rewrite (proj2 (bytes_eqb_eq _ _) eq_refl), N.eqb_refl. cbn [negb fail_if bind]. f_equal.
  assert (Hu : input_combine_utxo i i = (in_non_witness_utxo i, in_witness_utxo i)).
  { unfold input_combine_utxo. rewrite comb_opt_self. now destruct (in_witness_utxo i). }
  rewrite Hu. cbn [fst snd]. rewrite !comb_opt_self. destruct H as [H1 H2 H3 H4 H5 H6 H7 H8 H9 H10 H11 H12 H13].
  rewrite (comb_map_self _ sk_pubkey_inj _ H1), (comb_map_self _ bkey_inj _ H2), (comb_map_self _ bkey_inj _ H3), (comb_map_self _ bkey_inj _ H4),
    (comb_map_self _ bkey_inj _ H5), (comb_map_self _ bkey_inj _ H6), (comb_map_self _ sk_xleaf_inj _ H7),
    (comb_map_self _ sk_controlblock_inj _ H8), (comb_map_self _ bkey_inj _ H9), (comb_map_self _ bkey_inj _ H10),
    (comb_map_self _ bkey_inj _ H11), (comb_map_self _ sk_propkey_inj _ H12), (comb_map_self _ sk_key_inj _ H13).
  now destruct i.
Qed.
Lemma output_combine_self o : sorted_output o -> output_combine o o = Ok o.
Proof.
  intros H. unfold output_combine. rewrite (proj2 (bytes_eqb_eq _ _) eq_refl), N.eqb_refl. cbn [negb fail_if bind]. f_equal.
  rewrite !comb_opt_self. destruct H as [H1 H2 H3 H4].
  rewrite (comb_map_self _ bkey_inj _ H1), (comb_map_self _ bkey_inj _ H2), (comb_map_self _ sk_propkey_inj _ H3), (comb_map_self _ sk_key_inj _ H4).
  now destruct o.
Qed.
Lemma merge_self_step l : forall m, (forall x k, In (x, k) l -> m_get sk_xpub x m = Some k) -> global_merge_xpubs l m = Ok m.
Proof.
  induction l as [|[x k] l IH]; intros m H; cbn [global_merge_xpubs]; auto.
  unfold global_merge_xpub. rewrite (H x k) by (now left). cbn zeta.
  rewrite (proj2 (path_eqb_eq _ _) eq_refl), (proj2 (bytes_eqb_eq _ _) eq_refl). cbn [andb orb bind].
  apply IH. intros y k' Hi. apply H. now right.
Qed.
Lemma global_combine_self g : sorted_global g -> global_combine g g = Ok g.
Proof.
  intros [H1 H2 H3 H4 H5]. unfold global_combine. rewrite !N.eqb_refl. cbn [negb fail_if bind].
  rewrite merge_self_step by (intros x k Hi; apply m_in_get; auto; exact sk_xpub_inj). cbn [bind]. f_equal.
  rewrite (comb_map_self _ bkey_inj _ H2), (comb_map_self _ bkey_inj _ H3), (comb_map_self _ sk_propkey_inj _ H4), (comb_map_self _ sk_key_inj _ H5).
  now destruct g.
Qed.
Lemma psbt_combine_self p : sorted_psbt p -> psbt_combine p p = Ok p.
Proof.
  intros (Hg & Hi & Ho). apply psbt_combine_ok. split; [now apply global_combine_self|]. split; apply combine_zip_self.
  - eapply Forall_impl; [|exact Hi]. apply input_combine_self.
  - eapply Forall_impl; [|exact Ho]. apply output_combine_self.
Qed.

(** Well-formed PSBTs are sorted. *)
Lemma sp_sorted (P : list (bytes * bytes) -> Prop) m : (P m -> m_sorted bkey m) -> sp_field P [] m -> m_sorted bkey m.
Proof.
  unfold sp_field. intros H. destruct feat_sp; [auto|]. intros ->. apply m_sorted_nil.
Qed.
Lemma wf_sorted p : wf_psbt p -> sorted_psbt p.
Proof.
  intros H. split; [|split].
  - pose proof (wp_global _ H) as G. constructor; try apply G;
      [apply (sp_sorted _ _ (fun q => proj1 q) (wg_shares _ G))|apply (sp_sorted _ _ (fun q => proj1 q) (wg_proofs _ G))].
  - eapply Forall_impl; [|exact (wp_inputs _ H)]. intros i I. apply wf_input_iff in I as [I _]. constructor.
    + exact (proj1 (I IPartialSigs)).
    + exact (proj1 (I IBip32)).
    + exact (proj1 (I IRipemd160)).
    + exact (proj1 (I ISha256)).
    + exact (proj1 (I IHash160)).
    + exact (proj1 (I IHash256)).
    + exact (proj1 (I ITapScriptSigs)).
    + exact (proj1 (I ITapScripts)).
    + exact (proj1 (I ITapKeyOrigins)).
    + exact (sp_sorted _ _ (fun q => proj1 q) (I ISpEcdhShares)).
    + exact (sp_sorted _ _ (fun q => proj1 q) (I ISpDleqProofs)).
    + exact (proj1 (I IProprietaries)).
    + exact (proj1 (I IUnknowns)).
  - eapply Forall_impl; [|exact (wp_outputs _ H)]. intros i I. apply wf_output_iff in I as [I _]. constructor.
    + exact (proj1 (I OBip32)).
    + exact (proj1 (I OTapKeyOrigins)).
    + exact (proj1 (I OProprietaries)).
    + exact (proj1 (I OUnknowns)).
Qed.

(** *** Commutation *)


Lemma key_of_nwu i k : wf_input i -> In k (keys (input_pairs i)) -> k_type k = x00 -> in_non_witness_utxo i <> None.
Proof.
  intros Hw Hk Et. unfold keys in Hk. apply in_map_iff in Hk as (p & <- & Hp). apply wf_input_iff in Hw as [Hw _].
  rewrite ipairs_eq in Hp. destruct (spairs_slot _ _ _ _ _ _ _ _ _ ispec i p Hw Hp x00 Et) as (f & Ef & Hf).
  change (islot x00) with INonWitnessUtxo in Ef. subst f. cbn in Hf. destruct (in_non_witness_utxo i); [discriminate|destruct Hf].
Qed.
Lemma key_of_sighash i k : wf_input i -> In k (keys (input_pairs i)) -> k_type k = x03 -> in_sighash_type i <> None.
Proof.
  intros Hw Hk Et. unfold keys in Hk. apply in_map_iff in Hk as (p & <- & Hp). apply wf_input_iff in Hw as [Hw _].
  rewrite ipairs_eq in Hp. destruct (spairs_slot _ _ _ _ _ _ _ _ _ ispec i p Hw Hp x03 Et) as (f & Ef & Hf).
  change (islot x03) with ISighashType in Ef. subst f. cbn in Hf. destruct (in_sighash_type i); [discriminate|destruct Hf].
Qed.
Lemma key_of_fallback g k : wf_global g -> In k (keys (global_pairs g)) -> k_type k = x03 -> g_fallback_lock_time g <> None.
Proof.
  intros Hw Hk Et. unfold keys in Hk. apply in_map_iff in Hk as (p & <- & Hp). apply wf_global_iff in Hw as [Hw _].
  rewrite gpairs_eq in Hp. destruct (spairs_slot _ _ _ _ _ _ _ _ _ gspec (to_gdec g) p Hw Hp x03 Et) as (f & Ef & Hf).
  change (gslot x03) with GFallback in Ef. subst f. cbn in Hf. destruct (g_fallback_lock_time g); [discriminate|destruct Hf].
Qed.

Lemma compatible_inputs_all i j c : compatible_inputs i j -> wf_input i -> wf_input j -> input_combine i j = Ok c ->
  forall k, In k (keys (input_pairs i)) \/ In k (keys (input_pairs j)) -> In k (keys (input_pairs c)).
Proof.
  intros (Hn & Hs & Hu) Hi Hj Hc k [Hk|Hk].
  - destruct (input_combine_keys_left _ _ _ _ Hc Hk) as [Q|(Et & Q)]; auto.
    exfalso. apply (key_of_nwu i k Hi Hk Et). apply Hu. auto.
  - destruct (input_combine_keys_right _ _ _ _ Hc Hk) as [Q|[(Et & Q)|(Et & Q)]]; auto.
    + exfalso. apply (key_of_nwu j k Hj Hk Et). apply Hu. auto.
    + exfalso. apply (key_of_sighash j k Hj Hk Et). now apply Hs.
Qed.
Lemma compatible_inputs_sym i j : compatible_inputs i j -> compatible_inputs j i.
Proof. intros (H1 & H2 & H3). split; [now apply no_conflict_sym|]. split; [tauto|]. intros H. apply and_comm. tauto. Qed.

Lemma compatible_inputs_same i j : wf_input i -> wf_input j -> compatible_inputs i j ->
  in_previous_txid i = in_previous_txid j /\ in_spent_output_index i = in_spent_output_index j.
Proof.
  intros Hi Hj (Hn & _). split.
  - assert (Q : ser_hash (in_previous_txid i) = ser_hash (in_previous_txid j)).
    { apply (Hn (Pair (Key x0e []) (ser_hash (in_previous_txid i))) (Pair (Key x0e []) (ser_hash (in_previous_txid j)))); auto; now left. }
    exact Q.
  - assert (Q : ser_u32 (in_spent_output_index i) = ser_u32 (in_spent_output_index j)).
    { apply (Hn (Pair (Key x0f []) (ser_u32 (in_spent_output_index i))) (Pair (Key x0f []) (ser_u32 (in_spent_output_index j)))); auto;
        right; now left. }
    pose proof (wi_index _ Hi) as W1. pose proof (wi_index _ Hj) as W2. change (2 ^ 32) with 4294967296 in *.
    unfold ser_u32 in Q. apply (le_enc_inj 4) in Q; auto; cbn; lia.
Qed.
Lemma compatible_inputs_comm i j : wf_input i -> wf_input j -> compatible_inputs i j ->
  exists c, input_combine i j = Ok c /\ input_combine j i = Ok c.
Proof.
  intros Hi Hj Hc. destruct (compatible_inputs_same i j Hi Hj Hc) as [E1 E2].
  destruct (proj2 (input_combine_iff i j) (conj E1 E2)) as [c H1].
  destruct (proj2 (input_combine_iff j i) (conj (eq_sym E1) (eq_sym E2))) as [d H2].
  exists c. split; auto. rewrite H2. f_equal. symmetry.
  pose proof (input_combine_wf _ _ _ H1 Hi Hj) as Wc. pose proof (input_combine_wf _ _ _ H2 Hj Hi) as Wd.
  apply input_perm_eq; auto.
  apply (union_perm (input_pairs i) (input_pairs j)); auto using input_pairs_nodup.
  - apply Hc.
  - intros p. now apply input_combine_from.
  - now apply compatible_inputs_all.
  - intros p. now apply input_combine_from.
  - apply (compatible_inputs_all j i); auto using compatible_inputs_sym.
Qed.

Lemma compatible_outputs_same i j : wf_output i -> wf_output j -> compatible_outputs i j ->
  out_amount i = out_amount j /\ out_script_pubkey i = out_script_pubkey j.
Proof.
  intros Hi Hj Hn. split.
  - assert (Q : ser_amount (out_amount i) = ser_amount (out_amount j)).
    { apply (Hn (Pair (Key x03 []) (ser_amount (out_amount i))) (Pair (Key x03 []) (ser_amount (out_amount j)))); auto; now left. }
    apply wf_output_iff in Hi as [Hi _], Hj as [Hj _]. pose proof (Hi OAmount) as W1. pose proof (Hj OAmount) as W2. cbn in W1, W2.
    unfold ser_amount in Q. apply (le_enc_inj 8) in Q; auto.
  - assert (Q : ser_script (out_script_pubkey i) = ser_script (out_script_pubkey j)).
    { apply (Hn (Pair (Key x04 []) (ser_script (out_script_pubkey i))) (Pair (Key x04 []) (ser_script (out_script_pubkey j)))); auto;
        right; now left. }
    exact Q.
Qed.
Lemma compatible_outputs_comm i j : wf_output i -> wf_output j -> compatible_outputs i j ->
  exists c d, output_combine i j = Ok c /\ output_combine j i = Ok d /\ output_eq c d.
Proof.
  intros Hi Hj Hc. destruct (compatible_outputs_same i j Hi Hj Hc) as [E1 E2].
  destruct (proj2 (output_combine_iff i j) (conj E1 E2)) as [c H1].
  destruct (proj2 (output_combine_iff j i) (conj (eq_sym E1) (eq_sym E2))) as [d H2].
  exists c, d. split; auto. split; auto.
  pose proof (output_combine_wf _ _ _ H1 Hi Hj) as Wc. pose proof (output_combine_wf _ _ _ H2 Hj Hi) as Wd.
  apply output_perm_eq; auto.
  apply (union_perm (output_pairs i) (output_pairs j)); auto using output_pairs_nodup.
  - intros p. now apply output_combine_from.
  - intros k. now apply output_combine_keys.
  - intros p. now apply output_combine_from.
  - intros k. now apply output_combine_keys.
Qed.


Lemma compatible_globals_same g h : wf_global g -> wf_global h -> compatible_globals g h ->
  g_version g = g_version h /\ g_tx_version g = g_tx_version h.
Proof.
  intros Hg Hh (Hn & _). split; [now rewrite (wg_version _ Hg), (wg_version _ Hh)|].
  assert (Q : ser_txversion (g_tx_version g) = ser_txversion (g_tx_version h)).
  { apply (Hn (Pair (Key x02 []) (ser_txversion (g_tx_version g))) (Pair (Key x02 []) (ser_txversion (g_tx_version h)))); auto;
      right; now left. }
  unfold ser_txversion in Q. apply (le_enc_inj 4) in Q; auto; [exact (wg_tx_version _ Hg)|exact (wg_tx_version _ Hh)].
Qed.
Lemma xpub_pair_in g x k : In (x, k) (g_xpubs g) -> In (Pair (Key x01 (ser_xpub x)) (ser_keysource k)) (global_pairs g).
Proof.
  intros H. rewrite gpairs_eq. apply in_flat_map. exists GXpubs. split; [apply gorder_all|]. cbn.
  unfold map_pairs. apply in_map_iff. now exists (x, k).
Qed.
Lemma merge_agree g h : wf_global g -> wf_global h -> no_conflict (global_pairs g) (global_pairs h) ->
  exists m, global_merge_xpubs (g_xpubs h) (g_xpubs g) = Ok m.
Proof.
  intros Hg Hh Hn. destruct (wg_xpubs _ Hg) as [Sg Wg], (wg_xpubs _ Hh) as [Sh Wh].
  destruct (is_ok (global_merge_xpubs (g_xpubs h) (g_xpubs g))) eqn:E.
  - destruct (global_merge_xpubs _ _); try discriminate. eauto.
  - exfalso. apply (m_sorted_NoDup sk_xpub) in Sh.
    destruct (merge_fail _ _ _ Sh eq_refl E) as (l1 & x & b & l2 & a & El & Ha & _ & Hd).
    apply m_get_in in Ha; [|exact sk_xpub_inj].
    assert (Hb : In (x, b) (g_xpubs h)) by (rewrite El, in_app_iff; right; now left).
    rewrite Forall_forall in *. destruct (Wg _ Ha) as [_ Wa], (Wh _ Hb) as [_ Wb]. cbn in Wa, Wb.
    assert (Q : ser_keysource a = ser_keysource b) by exact (Hn _ _ (xpub_pair_in g x a Ha) (xpub_pair_in h x b Hb) eq_refl).
    assert (a = b). { apply (f_equal de_keysource) in Q. rewrite !(co_rt _ _ _ _ keysource_codec) in Q by assumption. now apply Ok_inj in Q. }
    subst b. destruct Hd as [(_ & _ & Hd)|(_ & _ & Hd)]; apply Hd; now exists [].
Qed.
Lemma global_combine_intro a b m : g_version a = g_version b -> g_tx_version a = g_tx_version b ->
  global_merge_xpubs (g_xpubs b) (g_xpubs a) = Ok m -> exists c, global_combine a b = Ok c.
Proof.
  intros E1 E2 Hm. unfold global_combine. rewrite E1, E2, !N.eqb_refl, Hm. cbn [negb fail_if bind]. eauto.
Qed.
Lemma compatible_globals_all g h c : compatible_globals g h -> wf_global h -> global_combine g h = Ok c ->
  forall k, In k (keys (global_pairs g)) \/ In k (keys (global_pairs h)) -> In k (keys (global_pairs c)).
Proof.
  intros (Hn & Hf) Hh Hc k [Hk|Hk].
  - eapply global_combine_keys_left; eauto.
  - destruct (global_combine_keys_right _ _ _ _ Hc Hk) as [Q|(Et & Q)]; auto.
    exfalso. apply (key_of_fallback h k Hh Hk Et). now apply Hf.
Qed.
Lemma compatible_globals_sym g h : compatible_globals g h -> compatible_globals h g.
Proof. intros (H1 & H2). split; [now apply no_conflict_sym|tauto]. Qed.
Lemma compatible_globals_comm g h : wf_global g -> wf_global h -> compatible_globals g h ->
  exists c, global_combine g h = Ok c /\ global_combine h g = Ok c.
Proof.
  intros Hg Hh Hc. destruct (compatible_globals_same g h Hg Hh Hc) as [E1 E2].
  destruct (merge_agree g h Hg Hh (proj1 Hc)) as [m M1].
  destruct (merge_agree h g Hh Hg (no_conflict_sym _ _ (proj1 Hc))) as [m' M2].
  destruct (global_combine_intro g h m E1 E2 M1) as [c H1].
  destruct (global_combine_intro h g m' (eq_sym E1) (eq_sym E2) M2) as [d H2].
  exists c. split; auto. rewrite H2. f_equal. symmetry.
  pose proof (global_combine_wf _ _ _ H1 Hg Hh) as Wc. pose proof (global_combine_wf _ _ _ H2 Hh Hg) as Wd.
  apply global_perm_eq; auto.
  apply (union_perm (global_pairs g) (global_pairs h)); auto using global_pairs_nodup.
  - apply Hc.
  - intros p. now apply global_combine_from.
  - now apply compatible_globals_all.
  - intros p. now apply global_combine_from.
  - apply (compatible_globals_all h g); auto using compatible_globals_sym.
Qed.

Lemma zip_comm {E A} (f : A -> A -> res E A) (Q : A -> A -> Prop) l l' :
  Forall2 (fun a b => exists c d, f a b = Ok c /\ f b a = Ok d /\ Q c d) l l' ->
  exists r s, combine_zip f l l' = Ok r /\ combine_zip f l' l = Ok s /\ Forall2 Q r s.
Proof.
  induction 1 as [|a b l l' (c & d & H1 & H2 & H3) _ (r & s & I1 & I2 & I3)]; cbn.
  - exists [], []. auto.
  - rewrite H1, H2. cbn. rewrite I1, I2. cbn. exists (c :: r), (d :: s). auto.
Qed.
Lemma Forall2_strong {A B} (P Q : A -> A -> Prop) (W W' : A -> Prop) l l' (b : B) :
  (forall x y, W x -> W' y -> P x y -> Q x y) -> Forall W l -> Forall W' l' -> Forall2 P l l' -> Forall2 Q l l'.
Proof.
  intros H H1 H2 H3. induction H3; constructor; inv H1; inv H2; auto.
Qed.
Lemma Forall2_eq_list {A} (l l' : list A) : Forall2 eq l l' -> l = l'.
Proof. induction 1; congruence. Qed.

Lemma psbt_combine_comm p q : wf_psbt p -> wf_psbt q -> compatible p q ->
  exists r s, psbt_combine p q = Ok r /\ psbt_combine q p = Ok s /\ psbt_eq r s.
Proof.
  intros Hp Hq (Hg & Hi & Ho).
  destruct (compatible_globals_comm _ _ (wp_global _ Hp) (wp_global _ Hq) Hg) as (g & G1 & G2).
  destruct (zip_comm input_combine eq (p_inputs p) (p_inputs q)) as (is & is' & I1 & I2 & I3).
  { refine (Forall2_strong _ _ _ _ _ _ tt _ (wp_inputs _ Hp) (wp_inputs _ Hq) Hi). intros x y Wx Wy Hc.
    destruct (compatible_inputs_comm x y Wx Wy Hc) as (c & Q1 & Q2). eauto. }
  destruct (zip_comm output_combine output_eq (p_outputs p) (p_outputs q)) as (os & os' & O1 & O2 & O3).
  { refine (Forall2_strong _ _ _ _ _ _ tt _ (wp_outputs _ Hp) (wp_outputs _ Hq) Ho). intros x y Wx Wy Hc.
    exact (compatible_outputs_comm x y Wx Wy Hc). }
  apply Forall2_eq_list in I3. subst is'.
  exists (Psbt g is os), (Psbt g is os'). split; [apply psbt_combine_ok; auto|]. split; [apply psbt_combine_ok; auto|].
  split; auto.
Qed.

(** *** Panics *)
Lemma input_combine_np a b : input_combine a b <> Panic.
Proof. unfold input_combine. destruct (bytes_eqb _ _); cbn; [|discriminate]. destruct (_ =? _); cbn; discriminate. Qed.
Lemma output_combine_np a b : output_combine a b <> Panic.
Proof. unfold output_combine. destruct (_ =? _); cbn; [|discriminate]. destruct (bytes_eqb _ _); cbn; discriminate. Qed.
Lemma zip_np {E A} (f : A -> A -> res E A) : (forall a b, f a b <> Panic) -> forall l l', combine_zip f l l' <> Panic.
Proof.
  intros Hf. induction l as [|a l IH]; intros [|b l']; cbn; try discriminate. specialize (Hf a b).
  destruct (f a b); cbn; try discriminate; [|tauto]. specialize (IH l'). destruct (combine_zip f l l'); cbn; try discriminate. tauto.
Qed.
Lemma map_err_np {E F A} (g : E -> F) (r : res E A) : map_err g r = Panic <-> r = Panic.
Proof. destruct r; cbn; split; intros H; (discriminate || reflexivity). Qed.
Lemma psbt_combine_panic a b : psbt_combine a b = Panic <-> global_combine (p_global a) (p_global b) = Panic.
Proof.
  unfold psbt_combine. split.
  - destruct (global_combine _ _); cbn; try discriminate; auto.
    pose proof (zip_np input_combine input_combine_np (p_inputs a) (p_inputs b)) as N1.
    pose proof (zip_np output_combine output_combine_np (p_outputs a) (p_outputs b)) as N2.
    destruct (combine_zip input_combine _ _); cbn; try discriminate; [|tauto].
    destruct (combine_zip output_combine _ _); cbn; try discriminate. tauto.
  - intros ->. reflexivity.
Qed.
Lemma global_combine_panic a b : global_combine a b = Panic <->
  g_version a = g_version b /\ g_tx_version a = g_tx_version b /\ global_merge_xpubs (g_xpubs b) (g_xpubs a) = Panic.
Proof.
  unfold global_combine. destruct (g_version a =? g_version b) eqn:E1; cbn [negb fail_if bind]; [|split; [discriminate|lia]].
  destruct (g_tx_version a =? g_tx_version b) eqn:E2; cbn [negb fail_if bind]; [|split; [discriminate|lia]].
  destruct (global_merge_xpubs _ _); cbn [bind]; split; try discriminate; try (intros (_ & _ & H); discriminate).
  - intros _. split; [lia|]. split; [lia|]. reflexivity.
  - reflexivity.
Qed.


Lemma merged_nested a b : (exists k, merged a b k) <-> nested a b.
Proof.
  rewrite merged_first. unfold nested. split; [tauto|].
  intros [H|H]; destruct H as [pre E]; pose proof (f_equal (@length N) E) as El; rewrite app_length in El.
  - right. split; [lia|]. now exists pre.
  - destruct pre as [|x pre].
    + right. rewrite E. split; auto. now exists [].
    + left. cbn in El. split; [lia|]. now exists (x :: pre).
Qed.
Lemma merge_panic_intro l1 : forall x b l2 m a, NoDup (map fst (l1 ++ (x, b) :: l2)) -> m_get sk_xpub x m = Some a ->
  short_second a b -> (forall y k k', In (y, k') l1 -> m_get sk_xpub y m = Some k -> nested k k') ->
  global_merge_xpubs (l1 ++ (x, b) :: l2) m = Panic.
Proof.
  induction l1 as [|[y k'] l1 IH]; intros x b l2 m a Hn Hg Hb Hf.
  - cbn. pose proof (merge_step x a b m Hg) as S. destruct Hb as [B1 B2]. inversion S; subst; auto.
    + exfalso. inversion H0; subst; try tauto. apply B2. now exists [].
    + exfalso. inversion H0; subst; try tauto. lia.
    + exfalso. rewrite H0 in B1. lia.
    + exfalso. lia.
  - cbn [app map fst] in Hn. inv Hn. cbn [app global_merge_xpubs].
    assert (Hne : forall z v, In (z, v) (l1 ++ (x, b) :: l2) -> z <> y). { intros z v Hi ->. apply H1. now apply (in_map fst) in Hi. }
    assert (Hs : exists m1, global_merge_xpub y k' m = Ok m1).
    { destruct (m_get sk_xpub y m) as [k|] eqn:E; [|rewrite merge_step_new by assumption; eauto].
      assert (Q : nested k k') by (apply (Hf y); auto; now left). apply merged_nested, merged_first in Q.
      pose proof (merge_step y k k' m E) as S. inversion S; subst; eauto; exfalso; destruct Q as [[Q1 Q2]|[Q1 Q2]]; (lia || tauto). }
    destruct Hs as [m1 Hs]. rewrite Hs. cbn [bind]. apply merge_step_get in Hs as (S1 & _ & _).
    apply (IH x b l2 m1 a); auto.
    + rewrite S1; auto. apply (Hne x b). rewrite in_app_iff. right. now left.
    + intros z v v' Hi Hz. apply (Hf z v v'); [now right|]. rewrite <- S1; auto. apply (Hne z v'). rewrite in_app_iff. auto.
Qed.
Lemma merge_panic_iff l m : NoDup (map fst l) ->
  global_merge_xpubs l m = Panic <-> exists l1 x b l2 a, l = l1 ++ (x, b) :: l2 /\ m_get sk_xpub x m = Some a /\ short_second a b /\
    (forall y k k', In (y, k') l1 -> m_get sk_xpub y m = Some k -> nested k k').
Proof.
  intros Hn. split.
  - intros H. destruct (merge_fail l m Panic Hn H eq_refl) as (l1 & x & b & l2 & a & E & Hg & Hf & [(_ & B)|(Q & _)]); [|discriminate].
    exists l1, x, b, l2, a. split; auto. split; auto. split; auto. intros y k k' Hi Hk. rewrite Forall_forall in Hf.
    apply merged_nested. exact (Hf _ Hi k Hk).
  - intros (l1 & x & b & l2 & a & -> & Hg & B & Hf). eapply merge_panic_intro; eauto.
Qed.

(** *** Conflicts *)
Definition c_first {A} (pairs : A -> list pair) (R : A -> A -> A -> Prop) : Prop :=
  forall a b c p, R a b c -> In p (pairs a) -> In p (pairs c).
Definition c_second {A} (pairs : A -> list pair) (wf : A -> Prop) (R : A -> A -> A -> Prop) : Prop :=
  forall a b c p, wf b -> R a b c -> In p (pairs b) -> In p (pairs c).
Lemma opt_first {A} t (ser : A -> bytes) : c_first (opt_pairs t ser) r_opt.
Proof. intros [a|] b c p -> H; auto. destruct H. Qed.
Lemma keep_first {A} (pairs : A -> list pair) : c_first pairs r_keep.
Proof. intros a b c p ->. auto. Qed.
Lemma off_first {A} (b : bool) (pairs : A -> list pair) R : c_first pairs R -> c_first (fun a => if b then pairs a else []) R.
Proof. intros H. destruct b; auto. intros ? ? ? ? ? []. Qed.
Lemma off_second {A} (b : bool) (pairs : A -> list pair) (wf wf' : A -> Prop) R :
  c_second pairs wf R -> c_second (fun a => if b then pairs a else []) (fun a => if b then wf a else wf' a) R.
Proof. intros H. destruct b; auto. intros ? ? ? ? ? ? []. Qed.
Lemma map_second {K V} (sk : K -> list N) (sk_inj : forall a b, sk a = sk b -> a = b) (entry : K * V -> pair) (wf : list (K * V) -> Prop) :
  (forall m, wf m -> m_sorted sk m) -> c_second (map entry) wf (r_map sk).
Proof.
  intros Hw a b c p Hb -> H. apply in_map_iff in H as ([x v] & <- & H). apply in_map. apply Hw in Hb.
  apply (m_get_in sk sk_inj). unfold comb_map. rewrite (m_get_extend sk sk_inj) by assumption.
  now rewrite (m_in_get sk x v b Hb H).
Qed.
Ltac maps_second :=
  first [apply (map_second bkey bkey_inj)|apply (map_second sk_propkey sk_propkey_inj)|apply (map_second sk_key sk_key_inj)
        |apply (map_second sk_pubkey sk_pubkey_inj)|apply (map_second sk_xleaf sk_xleaf_inj)
        |apply (map_second sk_controlblock sk_controlblock_inj)]; let h := fresh in intros ? h; exact (proj1 h).

Lemma frame_in {S F : Type} (fty : F -> Type) (get : forall f, S -> fty f) (pairs : forall f, fty f -> list pair) order
  (Oall : forall f, In f order) s p f : In p (pairs f (get f s)) -> In p (spairs fty get pairs order s).
Proof. intros H. apply in_flat_map. eauto. Qed.

Lemma input_first a b c p : wf_input a -> input_combine a b = Ok c -> In p (input_pairs a) -> In (k_type (p_key p)) single_input ->
  In p (input_pairs c) \/ lost_first a b (p_key p).
Proof.
  intros Ha Hc Hp Ht. apply input_combine_ok in Hc as (_ & _ & HN & HR). apply wf_input_iff in Ha as [Ha _]. rewrite ipairs_eq in *.
  destruct (spairs_slot _ _ _ _ _ _ _ _ _ ispec a p Ha Hp _ eq_refl) as (f & Ef & Hf).
  assert (G : forall f, islot (ptype p) = f -> In p (ifpairs f (iget f a)) -> c_first (ifpairs f) (iR f) ->
     In p (spairs ity iget ifpairs iorder c)).
  { intros f' _ Hf' Hc. apply (frame_in _ _ _ _ iorder_all _ _ f'). exact (Hc _ _ _ _ (HR f') Hf'). }
  destruct f; try (left; apply (G _ Ef Hf); cbn [ifpairs iR]; first [apply opt_first|apply keep_first]);
    try (exfalso; unfold ptype in Ef; repeat (destruct Ht as [Ht|Ht]; [rewrite <- Ht in Ef; discriminate Ef|]); exact Ht).
  - destruct (utxo_switch_dec a b) as [U|U].
    + right. split; auto. cbn in Hf. destruct (in_non_witness_utxo a); [|destruct Hf]. destruct Hf as [<-|[]]. reflexivity.
    + left. apply (frame_in _ _ _ _ iorder_all _ _ INonWitnessUtxo). cbn in Hf |- *. rewrite (HN U).
      destruct (in_non_witness_utxo a); [|destruct Hf]. exact Hf.
Qed.


(** The field of a single-valued type is not reached by other types. *)
Ltac not_single Nt Ef H := exfalso; apply Nt; apply H in Ef; rewrite <- Ef; cbn; tauto.

Lemma input_second a b c q : wf_input b -> input_combine a b = Ok c -> In q (input_pairs b) -> ~ In (k_type (p_key q)) single_input ->
  In q (input_pairs c).
Proof.
  intros Hb Hc Hq Nt. apply input_combine_ok in Hc as (_ & _ & HN & HR). apply wf_input_iff in Hb as [Hb _]. rewrite ipairs_eq in *.
  destruct (spairs_slot _ _ _ _ _ _ _ _ _ ispec b q Hb Hq _ eq_refl) as (f & Ef & Hf).
  assert (G : forall f, In q (ifpairs f (iget f b)) -> c_second (ifpairs f) (ifwf f) (iR f) ->
     In q (spairs ity iget ifpairs iorder c)).
  { intros f' Hf' Hc. apply (frame_in _ _ _ _ iorder_all _ _ f'). exact (Hc _ _ _ _ (Hb f') (HR f') Hf'). }
  unfold ptype in Ef. destruct f; try (apply (G _ Hf); cbn [ifpairs iR ifwf ity]; first [maps_second|apply off_second; maps_second]).
  - not_single Nt Ef islot_IPreviousTxid.
  - not_single Nt Ef islot_ISpentOutputIndex.
  - not_single Nt Ef islot_ISequence.
  - not_single Nt Ef islot_IMinTime.
  - not_single Nt Ef islot_IMinHeight.
  - not_single Nt Ef islot_INonWitnessUtxo.
  - not_single Nt Ef islot_IWitnessUtxo.
  - not_single Nt Ef islot_ISighashType.
  - not_single Nt Ef islot_IRedeemScript.
  - not_single Nt Ef islot_IWitnessScript.
  - not_single Nt Ef islot_IFinalScriptSig.
  - not_single Nt Ef islot_IFinalScriptWitness.
  - not_single Nt Ef islot_ITapKeySig.
  - not_single Nt Ef islot_ITapInternalKey.
  - not_single Nt Ef islot_ITapMerkleRoot.
Qed.

Lemma output_first a b c p : wf_output a -> output_combine a b = Ok c -> In p (output_pairs a) ->
  In (k_type (p_key p)) (single_output feat_sp) -> In p (output_pairs c).
Proof.
  intros Ha Hc Hp Ht. apply output_combine_ok in Hc as (_ & _ & HR). apply wf_output_iff in Ha as [Ha _]. rewrite opairs_eq in *.
  destruct (spairs_slot _ _ _ _ _ _ _ _ _ ospec a p Ha Hp _ eq_refl) as (f & Ef & Hf).
  assert (G : forall f, In p (ofpairs f (oget f a)) -> c_first (ofpairs f) (oR f) -> In p (spairs oty oget ofpairs oorder c)).
  { intros f' Hf' Hc. apply (frame_in _ _ _ _ oorder_all _ _ f'). exact (Hc _ _ _ _ (HR f') Hf'). }
  destruct f; try (apply (G _ Hf); cbn [ofpairs oR]; first [apply opt_first|apply keep_first|apply off_first, opt_first]);
    (exfalso; unfold ptype in Ef; unfold single_output in Ht; unfold oslot in Ef; destruct feat_sp; cbn [app] in Ht;
     repeat (destruct Ht as [Ht|Ht]; [rewrite <- Ht in Ef; discriminate Ef|]); exact Ht).
Qed.
Lemma output_second a b c q : wf_output b -> output_combine a b = Ok c -> In q (output_pairs b) ->
  ~ In (k_type (p_key q)) (single_output feat_sp) -> In q (output_pairs c).
Proof.
  intros Hb Hc Hq Nt. apply output_combine_ok in Hc as (_ & _ & HR). apply wf_output_iff in Hb as [Hb _]. rewrite opairs_eq in *.
  destruct (spairs_slot _ _ _ _ _ _ _ _ _ ospec b q Hb Hq _ eq_refl) as (f & Ef & Hf).
  assert (G : forall f, In q (ofpairs f (oget f b)) -> c_second (ofpairs f) (ofwf f) (oR f) ->
     In q (spairs oty oget ofpairs oorder c)).
  { intros f' Hf' Hc. apply (frame_in _ _ _ _ oorder_all _ _ f'). exact (Hc _ _ _ _ (Hb f') (HR f') Hf'). }
  unfold ptype in Ef. destruct f; try (apply (G _ Hf); cbn [ofpairs oR ofwf oty]; maps_second).
  - not_single Nt Ef oslot_OAmount.
  - not_single Nt Ef oslot_OScriptPubkey.
  - not_single Nt Ef oslot_ORedeemScript.
  - not_single Nt Ef oslot_OWitnessScript.
  - not_single Nt Ef oslot_OTapInternalKey.
  - not_single Nt Ef oslot_OTapTree.
  - destruct feat_sp eqn:F; [|cbn in Hf; rewrite F in Hf; destruct Hf]. apply (oslot_OSpInfo _ F) in Ef. exfalso. apply Nt. rewrite <- Ef. cbn. tauto.
  - destruct feat_sp eqn:F; [|cbn in Hf; rewrite F in Hf; destruct Hf]. apply (oslot_OSpLabel _ F) in Ef. exfalso. apply Nt. rewrite <- Ef. cbn. tauto.
Qed.

Lemma global_first a b c p : wf_global a -> global_combine a b = Ok c -> In p (global_pairs a) ->
  In (k_type (p_key p)) single_global -> In p (global_pairs c).
Proof.
  intros Ha Hc Hp Ht. apply global_combine_ok in Hc as (_ & _ & _ & HR). apply wf_global_iff in Ha as [Ha _]. rewrite gpairs_eq in *.
  destruct (spairs_slot _ _ _ _ _ _ _ _ _ gspec (to_gdec a) p Ha Hp _ eq_refl) as (f & Ef & Hf).
  assert (G : forall f, In p (gfpairs f (gget f (to_gdec a))) -> c_first (gfpairs f) (gR f) -> In p (spairs gty gget gfpairs gorder (to_gdec c))).
  { intros f' Hf' Hc. apply (frame_in _ _ _ _ gorder_all _ _ f'). exact (Hc _ _ _ _ (HR f') Hf'). }
  destruct f; try (apply (G _ Hf); cbn [gfpairs gR]; apply keep_first);
    (exfalso; unfold ptype in Ef; unfold single_global in Ht;
     repeat (destruct Ht as [Ht|Ht]; [rewrite <- Ht in Ef; discriminate Ef|]); exact Ht).
Qed.
Lemma global_second a b c q : wf_global b -> global_combine a b = Ok c -> In q (global_pairs b) ->
  ~ In (k_type (p_key q)) (x01 :: single_global) -> In q (global_pairs c).
Proof.
  intros Hb Hc Hq Nt. apply global_combine_ok in Hc as (_ & _ & _ & HR). apply wf_global_iff in Hb as [Hb _]. rewrite gpairs_eq in *.
  destruct (spairs_slot _ _ _ _ _ _ _ _ _ gspec (to_gdec b) q Hb Hq _ eq_refl) as (f & Ef & Hf).
  assert (G : forall f, In q (gfpairs f (gget f (to_gdec b))) -> c_second (gfpairs f) (gfwf f) (gR f) ->
     In q (spairs gty gget gfpairs gorder (to_gdec c))).
  { intros f' Hf' Hc. apply (frame_in _ _ _ _ gorder_all _ _ f'). exact (Hc _ _ _ _ (Hb f') (HR f') Hf'). }
  unfold ptype in Ef. destruct f; try (apply (G _ Hf); cbn [gfpairs gR gfwf gty]; first [maps_second|apply off_second; maps_second]).
  - not_single Nt Ef gslot_GVersion.
  - not_single Nt Ef gslot_GTxVersion.
  - not_single Nt Ef gslot_GFallback.
  - exfalso. apply Nt. apply gslot_GCounts in Ef as [Ef|Ef]; rewrite <- Ef; cbn; tauto.
  - not_single Nt Ef gslot_GFlags.
  - not_single Nt Ef gslot_GXpubs.
Qed.


(** *** PSBTs for the same transaction *)
Lemma merge_nested a b : m_sorted sk_xpub a -> m_sorted sk_xpub b ->
  (forall x ka kb, In (x, ka) a -> In (x, kb) b -> nested ka kb) -> exists m, global_merge_xpubs b a = Ok m.
Proof.
  intros Sa Sb H. destruct (is_ok (global_merge_xpubs b a)) eqn:E; [destruct (global_merge_xpubs b a); try discriminate; eauto|].
  exfalso. destruct (merge_fail _ _ _ (m_sorted_NoDup sk_xpub _ Sb) eq_refl E) as (l1 & x & kb & l2 & ka & El & Hg & _ & Hd).
  assert (Q : nested ka kb). { apply (H x); [now apply (m_get_in _ sk_xpub_inj) in Hg|]. rewrite El, in_app_iff. right. now left. }
  apply merged_nested, merged_first in Q. destruct Hd as [(_ & Q1 & Q2)|(_ & Q1 & Q2)]; destruct Q as [[Q3 Q4]|[Q3 Q4]]; (lia || tauto).
Qed.
Lemma same_input_combined i j c : in_min_time i = in_min_time j -> in_min_height i = in_min_height j -> input_combine i j = Ok c ->
  outpoint_of c = outpoint_of i /\ in_min_time c = in_min_time i /\ in_min_height c = in_min_height i.
Proof.
  intros E1 E2 H. apply input_combine_ok in H as (_ & _ & _ & HR).
  pose proof (HR IPreviousTxid) as R1. pose proof (HR ISpentOutputIndex) as R2. pose proof (HR IMinTime) as R3. pose proof (HR IMinHeight) as R4.
  cbn in *. unfold r_keep, r_opt in *. unfold outpoint_of. rewrite R1, R2, R3, R4, <- E1, <- E2, !comb_opt_self. auto.
Qed.
Lemma same_output_combined i j c : output_combine i j = Ok c -> payment_of c = payment_of i.
Proof.
  intros H. apply output_combine_ok in H as (_ & _ & HR). pose proof (HR OAmount) as R1. pose proof (HR OScriptPubkey) as R2.
  cbn in *. unfold r_keep in *. unfold payment_of. congruence.
Qed.
Lemma zip_forall2 {E A} (f : A -> A -> res E A) (P Q : A -> A -> Prop) : (forall a b, P a b -> exists c, f a b = Ok c /\ Q c a) ->
  forall l l', Forall2 P l l' -> exists r, combine_zip f l l' = Ok r /\ Forall2 Q r l.
Proof.
  intros H. induction 1 as [|a b l l' Hp _ (r & I1 & I2)]; cbn; [eauto|]. destruct (H _ _ Hp) as (c & -> & Hq). cbn. rewrite I1. cbn. eauto.
Qed.
Lemma combine_same_fields a b : m_sorted sk_xpub (g_xpubs (p_global a)) -> m_sorted sk_xpub (g_xpubs (p_global b)) ->
  g_version (p_global a) = g_version (p_global b) -> same_tx_fields a b ->
  (forall x ka kb, In (x, ka) (g_xpubs (p_global a)) -> In (x, kb) (g_xpubs (p_global b)) -> nested ka kb) ->
  exists c, psbt_combine a b = Ok c /\ same_tx_fields c a.
Proof.
  intros Sa Sb Ev (Et & Ef & Hi & Ho) Hx. destruct (merge_nested _ _ Sa Sb Hx) as [m Hm].
  destruct (global_combine_intro (p_global a) (p_global b) m Ev Et Hm) as [g Hg].
  destruct (zip_forall2 input_combine (fun i j => outpoint_of i = outpoint_of j /\ in_min_time i = in_min_time j /\ in_min_height i = in_min_height j)
    (fun i j => outpoint_of i = outpoint_of j /\ in_min_time i = in_min_time j /\ in_min_height i = in_min_height j))
    with (2 := Hi) as (is & I1 & I2).
  { intros i j (Q1 & Q2 & Q3). unfold outpoint_of in Q1. injection Q1 as Q1 Q1'.
    destruct (proj2 (input_combine_iff i j) (conj Q1 Q1')) as [c Hc]. exists c. split; auto. eapply same_input_combined; eauto. }
  destruct (zip_forall2 output_combine (fun i j => payment_of i = payment_of j) (fun i j => payment_of i = payment_of j)) with (2 := Ho) as (os & O1 & O2).
  { intros i j Q1. unfold payment_of in Q1. injection Q1 as Q1 Q1'.
    destruct (proj2 (output_combine_iff i j) (conj Q1 Q1')) as [c Hc]. exists c. split; auto. eapply same_output_combined; eauto. }
  exists (Psbt g is os). split; [apply psbt_combine_ok; auto|].
  apply global_combine_ok in Hg as (_ & _ & _ & HR). pose proof (HR GTxVersion) as R1. pose proof (HR GFallback) as R2.
  cbn in R1, R2. unfold r_keep in *. injection R1 as R1. split; auto.
Qed.

End Facts.

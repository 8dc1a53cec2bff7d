(** Facts about the serde layer that are not round trips: hex text, repeated keys of maps,
    members of structs, and builds with and without the feature silent-payments. *)
From Coq Require Import String Permutation.
From Verif Require Import Base OMap Consensus Ext Raw TapTree Serialize SerializeFacts SighashType SpecSighash V2Global V2Input V2Output
  V2Psbt V0Input V0Output V0Psbt Serde SpecPsbt SpecPsbt0 SpecSerde SerdeFacts.
Local Open Scope N_scope.

(** ** Hex *)
Lemma hex_value_iff c x : hex_value c = Some x <-> any_digit c x.
Proof.
  unfold any_digit, lower_digit. destruct c; vm_compute hex_value;
    match goal with |- context [b2n ?c] => let v := eval vm_compute in (b2n c) in change (b2n c) with v end;
    (split; [first [discriminate | intros [= <-]; lia] | first [lia | intros H; f_equal; lia]]).
Qed.
Lemma from_hex_iff s b : from_hex s = Some b <-> hex_text any_digit s b.
Proof.
  split.
  - revert b. remember (List.length s) as n eqn:En. revert s En. induction n as [n IH] using (well_founded_induction Wf_nat.lt_wf). intros s En b H.
    destruct s as [|x [|y s]]; cbn [from_hex] in H.
    + injection H as <-. constructor.
    + discriminate.
    + destruct (hex_value x) as [u|] eqn:Hx; [|discriminate]. destruct (hex_value y) as [v|] eqn:Hy; [|discriminate].
      destruct (from_hex s) as [t|] eqn:Hs; [|discriminate]. injection H as <-.
      constructor; [now apply hex_value_iff|now apply hex_value_iff|]. apply (IH (List.length s)); [cbn in En; lia|reflexivity|exact Hs].
  - induction 1 as [|a x b' y s t Ha Hb _ IH]; cbn [from_hex]; [reflexivity|].
    apply hex_value_iff in Ha, Hb. now rewrite Ha, Hb, IH.
Qed.
Lemma hex_digit_lower n : n < 16 -> lower_digit (hex_digit n) n.
Proof.
  intros H. pose proof (hex_value_digit n H) as G. apply hex_value_iff in G. destruct G as [G|[G _]]; [exact G|exfalso].
  assert (Hn : In n [0;1;2;3;4;5;6;7;8;9;10;11;12;13;14;15]) by (cbn; lia).
  repeat (destruct Hn as [<-|Hn]; [vm_compute in G; destruct G as [G1 G2]; first [now apply G1 | now apply G2]|]). destruct Hn.
Qed.
Lemma to_hex_text b : hex_text lower_digit (to_hex b) b.
Proof.
  induction b as [|x b IH]; cbn [to_hex flat_map app]; [constructor|].
  pose proof (b2n_lt x) as Hx.
  replace (x :: b) with (n2b (16 * (b2n x / 16) + b2n x mod 16) :: b).
  - constructor; [apply hex_digit_lower; lia|apply hex_digit_lower; lia|exact IH].
  - f_equal. rewrite <- N.div_mod by lia. apply n2b_b2n.
Qed.
Lemma dleq_read f v b : c_de c_dleq f v = Some b <->
  List.length b = 64%nat /\ if f_hr f then exists s, v = SStr s /\ hex_text any_digit s b else v = SBytes b.
Proof.
  assert (B : forall b0 : bytes, (blen b0 =? 64) = true <-> List.length b0 = 64%nat) by (intros b0; rewrite N.eqb_eq; unfold blen; lia).
  unfold c_dleq. cbn [c_de]. destruct (f_hr f).
  - split.
    + intros H. destruct v; try discriminate. destruct (from_hex s) as [b0|] eqn:E; [|discriminate].
      destruct (blen b0 =? 64) eqn:G; [|discriminate]. injection H as <-. split; [now apply B|]. exists s.
      split; [reflexivity|now apply from_hex_iff].
    + intros (H & s & -> & Hs). apply from_hex_iff in Hs. rewrite Hs. apply B in H. now rewrite H.
  - split.
    + intros H. destruct v; try discriminate. destruct (blen b0 =? 64) eqn:G; [|discriminate]. injection H as <-.
      split; [now apply B|reflexivity].
    + intros (H & ->). apply B in H. now rewrite H.
Qed.

(** ** Maps *)
Lemma de_all_iff {A B} (de : A -> option B) l : forall r, de_all de l = Some r <-> Forall2 (fun a b => de a = Some b) l r.
Proof.
  induction l as [|a l IH]; intros r; cbn.
  - split; [intros [= <-]; constructor|]. intros H. inversion H. reflexivity.
  - split.
    + destruct (de a) as [b|] eqn:E; [|discriminate]. destruct (de_all de l) as [t|] eqn:G; [|discriminate].
      intros [= <-]. constructor; [exact E|now apply IH].
    + intros H. inversion H as [|? b ? t E G]; subst. apply IH in G. now rewrite E, G.
Qed.
Lemma bytes_numbers f v b : c_de c_bytes f v = Some b <-> reads_numbers v b.
Proof.
  unfold reads_numbers. split.
  - intros H. destruct v; try discriminate. cbn [c_bytes c_vec c_de] in H. apply de_all_iff in H. f_equal.
    induction H as [|x y l r E _ IH]; [reflexivity|]. cbn [map]. rewrite <- IH. f_equal.
    destruct x; try discriminate. cbn in E. destruct (n <? 256) eqn:G; [|discriminate]. injection E as <-.
    apply N.ltb_lt in G. now rewrite b2n_n2b.
  - intros ->. cbn [c_bytes c_vec c_de]. apply de_all_iff. induction b as [|x b IH]; cbn; constructor; [|exact IH].
    cbn. pose proof (b2n_lt x) as Hx. apply N.ltb_lt in Hx. now rewrite Hx, n2b_b2n.
Qed.

Lemma Forall2_imp {A B} (P Q : A -> B -> Prop) l r : (forall a b, P a b -> Q a b) -> Forall2 P l r -> Forall2 Q l r.
Proof. intros H. induction 1; constructor; auto. Qed.

Section Last.
Context {K V : Type} (sk : K -> list N).
Hypothesis sk_inj : forall a b, sk a = sk b -> a = b.

Lemma extend_last (es : list (K * V)) : keeps_last sk es (m_extend sk [] es).
Proof.
  assert (G : forall (es m : list (K * V)), m_sorted sk m -> m_sorted sk (m_extend sk m es)
    /\ forall k x, m_get sk k (m_extend sk m es) = Some x <-> last_value es k x \/ (~ In k (map fst es) /\ m_get sk k m = Some x)).
  { clear es. induction es as [|[k0 x0] es IH]; intros m Hm; cbn [m_extend fold_left fst snd].
    - split; [exact Hm|]. intros k x. cbn. split; [intros H; right; tauto|]. intros [(a & b & H & _)|[_ H]]; [|exact H].
      destruct a; discriminate.
    - unfold m_extend in IH. destruct (IH (m_put sk k0 x0 m) (m_put_sorted sk sk_inj k0 x0 m Hm)) as [S G]. split; [exact S|].
      intros k x. rewrite G. clear G S. cbn [map fst In].
      destruct (list_eq_dec N.eq_dec (sk k) (sk k0)) as [Hk|Hk]; [apply sk_inj in Hk; subst k0|assert (Hn : k <> k0) by (intros ->; now apply Hk); clear Hk; rename Hn into Hk].
      + rewrite (m_get_put_eq sk sk_inj). split.
        * intros [(a & b & -> & N)|[N [= <-]]]; left; [exists ((k, x0) :: a), b|exists [], es]; auto.
        * intros [(a & b & H & N)|[N _]]; [|tauto]. destruct a as [|e a]; cbn in H.
          -- injection H as <- <-. right. auto.
          -- injection H as <- ->. left. now exists a, b.
      + rewrite (m_get_put_neq sk sk_inj) by exact Hk. split.
        * intros [(a & b & -> & N)|[N H]]; [left; now exists ((k0, x0) :: a), b|right]. split; [|exact H].
          intros [E|E]; [congruence|tauto].
        * intros [(a & b & H & N)|[N H]].
          -- destruct a as [|e a]; cbn in H; [injection H as E _ _; congruence|]. injection H as <- ->. left. now exists a, b.
          -- right. tauto. }
  destruct (G es [] (m_sorted_nil sk)) as [S H]. split; [exact S|]. intros k x.
  rewrite <- (m_get_some_iff sk sk_inj k x _ S), H. cbn. split; [intros [?|[_ [=]]]; assumption|tauto].
Qed.
Lemma keeps_last_unique (es m m' : list (K * V)) : keeps_last sk es m -> keeps_last sk es m' -> m = m'.
Proof.
  intros [S H] [S' H']. apply (m_ext sk sk_inj); [exact S|exact S'|]. intros k.
  destruct (m_get sk k m) as [x|] eqn:E.
  - symmetry. apply (m_get_some_iff sk sk_inj k x _ S'), H', H, (m_get_some_iff sk sk_inj k x _ S), E.
  - destruct (m_get sk k m') as [x|] eqn:E'; [|reflexivity]. apply (m_get_some_iff sk sk_inj k x _ S'), H', H, (m_get_some_iff sk sk_inj k x _ S) in E'. congruence.
Qed.
Lemma extend_iff (es m : list (K * V)) : m_extend sk [] es = m <-> keeps_last sk es m.
Proof. split; [intros <-; apply extend_last|]. intros H. exact (keeps_last_unique es _ _ (extend_last es) H). Qed.

Lemma all_then (de : list (K * V) -> Prop) (r : option (list (K * V))) m :
  (forall es, r = Some es <-> de es) ->
  ((e <~ r ;; Some (m_extend sk [] e)) = Some m <-> exists es, de es /\ keeps_last sk es m).
Proof.
  intros H. split.
  - destruct r as [es|]; [|discriminate]. intros [= E]. exists es. split; [now apply H|now apply extend_iff].
  - intros (es & D & Q). apply H in D. rewrite D. f_equal. now apply extend_iff.
Qed.
Lemma map_entries (k : sval -> option K) (c : sval -> option V) l es :
  de_all (fun x => p <~ k (fst x) ;; q <~ c (snd x) ;; Some (p, q)) l = Some es
  <-> Forall2 (fun e x => k (fst e) = Some (fst x) /\ c (snd e) = Some (snd x)) l es.
Proof.
  rewrite de_all_iff. split; intros H; (eapply Forall2_imp; [|exact H]); cbn; intros [a b] [x y]; cbn.
  - destruct (k a); [|discriminate]. destruct (c b); [|discriminate]. intros [= -> ->]. auto.
  - intros [-> ->]. reflexivity.
Qed.
Lemma seq_entries (k : codec K) (c : codec V) f l es :
  c_de (c_vec (c_pair k c)) f (SSeq l) = Some es
  <-> Forall2 (fun e x => exists a b, e = SSeq [a; b] /\ reads k f a (fst x) /\ reads c f b (snd x)) l es.
Proof.
  cbn [c_vec c_de]. rewrite de_all_iff. split; intros H; (eapply Forall2_imp; [|exact H]); cbn; intros v [x y]; cbn.
  - destruct v as [| | | | |[|a [|b [|]]]|]; try discriminate. destruct (c_de k f a) eqn:E; [|discriminate]. destruct (c_de c f b) eqn:G; [|discriminate].
    intros [= -> ->]. exists a, b. auto.
  - intros (a & b & -> & H1 & H2). unfold reads in *. now rewrite H1, H2.
Qed.
End Last.

Lemma map_last {K V} (sk : K -> list N) (k : codec K) (c : codec V) f v m : (forall a b, sk a = sk b -> a = b) ->
  c_de (c_map sk k c) f v = Some m <-> exists es, given_as_map (reads k f) (reads c f) v es /\ keeps_last sk es m.
Proof.
  intros inj. cbn [c_map c_de]. split.
  - destruct v; try discriminate. intros H. apply (all_then sk inj _ _ m (map_entries (c_de k f) (c_de c f) l)) in H.
    destruct H as (es & H & Q). exists es. split; [now constructor|exact Q].
  - intros (es & H & Q). destruct H as [l es H]. apply (all_then sk inj _ _ m (map_entries (c_de k f) (c_de c f) l)). now exists es.
Qed.
Lemma vec_last {K V} (sk : K -> list N) (k : codec K) (c : codec V) f v m : (forall a b, sk a = sk b -> a = b) ->
  (e <~ c_de (c_vec (c_pair k c)) f v ;; Some (m_extend sk [] e)) = Some m
  <-> exists es, given_as_seq (reads k f) (reads c f) v es /\ keeps_last sk es m.
Proof.
  intros inj. split.
  - destruct v; try discriminate. intros H. apply (all_then sk inj _ _ m (seq_entries k c f l)) in H.
    destruct H as (es & H & Q). exists es. split; [now constructor|exact Q].
  - intros (es & H & Q). destruct H as [l es H]. apply (all_then sk inj _ _ m (seq_entries k c f l)). now exists es.
Qed.
Lemma given_map_imp {K V} rk (rv rv' : sval -> V -> Prop) v (es : list (K * V)) :
  (forall v x, rv v x <-> rv' v x) -> given_as_map rk rv v es <-> given_as_map rk rv' v es.
Proof.
  intros H. split; intros [l e G]; constructor; (eapply Forall2_imp; [|exact G]); cbn; intros a b [A B]; (split; [exact A|now apply H]).
Qed.
Lemma given_seq_imp {K V} rk (rv rv' : sval -> V -> Prop) v (es : list (K * V)) :
  (forall v x, rv v x <-> rv' v x) -> given_as_seq rk rv v es <-> given_as_seq rk rv' v es.
Proof.
  intros H. split; intros [l e G]; constructor; (eapply Forall2_imp; [|exact G]); cbn; intros a b (u & w & E & A & B);
    exists u, w; (split; [exact E|split; [exact A|now apply H]]).
Qed.
Lemma as_seq_last {K V} (sk : K -> list N) (k : codec K) (c : codec V) f v m : (forall a b, sk a = sk b -> a = b) ->
  c_de (c_as_seq sk k c) f v = Some m
  <-> exists es, (if f_hr f then given_as_seq (reads k f) (reads c f) v es else given_as_map (reads k f) (reads c f) v es) /\ keeps_last sk es m.
Proof.
  intros inj. unfold c_as_seq. cbn [c_de]. destruct (f_hr f); [now apply vec_last|now apply map_last].
Qed.
Lemma hex_read f v b : f_hr f = true -> (reads c_hex f v b <-> reads_hex v b).
Proof.
  intros H. unfold reads, reads_hex, c_hex. cbn [c_de]. rewrite H. split.
  - intros E. destruct v; try discriminate; apply from_hex_iff in E; eauto.
  - intros (s & [->| ->] & E); now apply from_hex_iff.
Qed.
Lemma seq_bytes_last {K} (sk : K -> list N) (k : codec K) f v m : (forall a b, sk a = sk b -> a = b) ->
  c_de (c_seq_byte_values sk k) f v = Some m
  <-> exists es, (if f_hr f then given_as_seq (reads k f) reads_hex v es else given_as_map (reads k f) reads_numbers v es) /\ keeps_last sk es m.
Proof.
  intros inj. unfold c_seq_byte_values. cbn [c_de]. destruct (f_hr f) eqn:H.
  - rewrite (vec_last sk k c_hex f v m inj). split; intros (es & G & Q); exists es; (split; [|exact Q]);
      apply (given_seq_imp _ _ _ _ _ (fun v b => hex_read f v b H)); exact G.
  - rewrite (map_last sk k c_bytes f v m inj). split; intros (es & G & Q); exists es; (split; [|exact Q]);
      apply (given_map_imp _ _ _ _ _ (bytes_numbers f)); exact G.
Qed.
Lemma byte_values_last {K} (sk : K -> list N) (k : codec K) f v m : (forall a b, sk a = sk b -> a = b) ->
  c_de (c_byte_values sk k) f v = Some m
  <-> exists es, given_as_map (reads k f) (if f_hr f then fun v b => f_lends f = true /\ reads_hex v b else reads_numbers) v es /\ keeps_last sk es m.
Proof.
  intros inj. unfold c_byte_values. cbn [c_de]. destruct (f_hr f) eqn:H.
  - assert (G : forall v b, (s <~ borrowed_str f v ;; from_hex s) = Some b <-> f_lends f = true /\ reads_hex v b).
    { intros u b. unfold borrowed_str, reads_hex. destruct (f_lends f); [|split; [discriminate|intros [[=] _]]]. split.
      - intros E. split; [reflexivity|]. destruct u; try discriminate; apply from_hex_iff in E; eauto.
      - intros (_ & s & [->| ->] & E); now apply from_hex_iff. }
    assert (D : forall l es, de_all (fun x => p <~ c_de k f (fst x) ;; s <~ borrowed_str f (snd x) ;; q <~ from_hex s ;; Some (p, q)) l = Some es
      <-> Forall2 (fun e x => reads k f (fst e) (fst x) /\ (f_lends f = true /\ reads_hex (snd e) (snd x))) l es).
    { intros l es. rewrite de_all_iff. split; intros F; (eapply Forall2_imp; [|exact F]); cbn; intros [a b] [x y]; unfold reads; cbn [fst snd].
      - destruct (c_de k f a); [|discriminate]. destruct (borrowed_str f b) as [s|] eqn:E1; [|discriminate].
        destruct (from_hex s) as [q|] eqn:E2; [|discriminate]. intros [= -> ->]. split; [reflexivity|]. apply G. now rewrite E1.
      - intros [-> E]. apply G in E. destruct (borrowed_str f b); [|discriminate]. now rewrite E. }
    split.
    + destruct v; try discriminate. intros E. apply (all_then sk inj _ _ m (D l)) in E. destruct E as (es & E & Q).
      exists es. split; [now constructor|exact Q].
    + intros (es & E & Q). destruct E as [l es E]. apply (all_then sk inj _ _ m (D l)). now exists es.
  - rewrite (map_last sk k c_bytes f v m inj). split; intros (es & G & Q); exists es; (split; [|exact Q]);
      apply (given_map_imp _ _ _ _ _ (bytes_numbers f)); exact G.
Qed.

(** ** Members *)
Ltac small_lookup b :=
  exists b; split; [reflexivity|split; [|split; [reflexivity|]]].
Lemma key_lookup : lookup [str "type_value"; str "key"] key_members (c_de c_key).
Proof.
  small_lookup (fun f l => t <~ req_field c_byte f (str "type_value") l ;; d <~ req_field c_hex f (str "key") l ;; Some (Key t d)).
  - intros f l l' H. now rewrite (req_agree _ _ f (str "type_value") l l' H eq_refl), (req_agree _ _ f (str "key") l l' H eq_refl).
  - intros f l x E m Hm. destruct (req_field c_byte f (str "type_value") l) eqn:E1; [|discriminate]. destruct (req_field c_hex f (str "key") l) eqn:E2; [|discriminate].
    cbn in Hm. destruct Hm as [[= <-]|[[= <-]|[]]]; eapply req_present; eassumption.
Qed.
Lemma raw_pair_lookup : lookup [str "key"; str "value"] raw_pair_members (c_de c_raw_pair).
Proof.
  small_lookup (fun f l => t <~ req_field c_key f (str "key") l ;; d <~ req_field c_hex f (str "value") l ;; Some (Pair t d)).
  - intros f l l' H. now rewrite (req_agree _ _ f (str "key") l l' H eq_refl), (req_agree _ _ f (str "value") l l' H eq_refl).
  - intros f l x E m Hm. destruct (req_field c_key f (str "key") l) eqn:E1; [|discriminate]. destruct (req_field c_hex f (str "value") l) eqn:E2; [|discriminate].
    cbn in Hm. destruct Hm as [[= <-]|[[= <-]|[]]]; eapply req_present; eassumption.
Qed.
Lemma propkey_lookup : lookup [str "prefix"; str "subtype"; str "key"] propkey_members (c_de c_propkey).
Proof.
  small_lookup (fun f l => p <~ req_field c_hex f (str "prefix") l ;; t <~ req_field c_byte f (str "subtype") l ;; d <~ req_field c_hex f (str "key") l ;; Some (PropKey p t d)).
  - intros f l l' H. now rewrite (req_agree _ _ f (str "prefix") l l' H eq_refl), (req_agree _ _ f (str "subtype") l l' H eq_refl), (req_agree _ _ f (str "key") l l' H eq_refl).
  - intros f l x E m Hm. destruct (req_field c_hex f (str "prefix") l) eqn:E1; [|discriminate]. destruct (req_field c_byte f (str "subtype") l) eqn:E2; [|discriminate].
    destruct (req_field c_hex f (str "key") l) eqn:E3; [|discriminate].
    cbn in Hm. destruct Hm as [[= <-]|[[= <-]|[[= <-]|[]]]]; eapply req_present; eassumption.
Qed.
Lemma sighash_lookup : lookup [str "inner"] sighash_type_members (c_de c_sighash_type).
Proof.
  small_lookup (fun f l => req_field c_u32 f (str "inner") l).
  - intros f l l' H. now rewrite (req_agree _ _ f (str "inner") l l' H eq_refl).
  - intros f l x E m Hm. cbn in Hm. destruct Hm as [[= <-]|[]]; eapply req_present; eassumption.
Qed.

Lemma lookup_names {A} names ms (de : fmt -> sval -> option A) : lookup names ms de -> names = map (fun m => str (fst m)) ms.
Proof. intros (b & _ & _ & H & _). exact H. Qed.
Lemma lookup_again {A} names ms (de : fmt -> sval -> option A) f l1 l2 l3 s k v k' w : lookup names ms de ->
  field_id names k = Some (Some s) -> field_id names k' = Some (Some s) ->
  de f (SMap (l1 ++ (k, v) :: l2 ++ (k', w) :: l3)) = None.
Proof.
  intros (build & D & _) Hk Hk'. rewrite D. cbn [struct_fields].
  destruct (collect names _ []) as [r|] eqn:E; [exfalso|reflexivity].
  apply collect_some in E as (e & He & Hd & _); [|constructor]. rewrite app_nil_r in Hd.
  rewrite ids_app in He. destruct (ids names l1) as [e1|]; [|discriminate].
  cbn [ids] in He. rewrite Hk in He. rewrite ids_app in He. destruct (ids names l2) as [e2|]; [|discriminate].
  cbn [ids] in He. rewrite Hk' in He. destruct (ids names l3) as [e3|]; [|discriminate]. injection He as <-.
  assert (N : NoDup (map fst (e1 ++ (s, v) :: e2 ++ (s, w) :: e3))).
  { eapply Permutation_NoDup; [apply Permutation_map, Permutation_sym, Permutation_rev|exact Hd]. }
  rewrite map_app in N. cbn [map fst] in N. apply NoDup_remove_2 in N. apply N.
  apply in_app_iff. right. rewrite map_app. apply in_app_iff. right. now left.
Qed.
Lemma ids_combine names : forall ns l, (forall n, In n ns -> In n names) -> List.length l = List.length ns ->
  ids names (combine (map SStr ns) l) = Some (combine ns l).
Proof.
  induction ns as [|n ns IH]; intros [|v l] Hin Hl; try discriminate; [reflexivity|]. cbn [map combine ids].
  rewrite (known names n) by (apply Hin; now left). rewrite IH; [reflexivity| |now injection Hl]. intros m Hm. apply Hin. now right.
Qed.
Lemma combine_fst {A B} (a : list A) : forall b : list B, List.length b = List.length a -> map fst (combine a b) = a.
Proof. induction a as [|x a IH]; intros [|y b] H; try discriminate; [reflexivity|]. cbn. f_equal. apply IH. now injection H. Qed.
Lemma lookup_positions {A} names ms (de : fmt -> sval -> option A) f l : lookup names ms de -> NoDup names ->
  de f (SSeq l) = if Nat.eqb (List.length l) (List.length ms) then de f (SMap (combine (map (fun m => SStr (str (fst m))) ms) l)) else None.
Proof.
  intros L Nd. pose proof (lookup_names _ _ _ L) as Hn. destruct L as (build & D & G & _). rewrite !D. cbn [struct_fields].
  assert (Hl : List.length names = List.length ms) by (rewrite Hn; apply map_length). rewrite Hl.
  destruct (Nat.eqb (List.length l) (List.length ms)) eqn:E; [|reflexivity]. apply Nat.eqb_eq in E.
  assert (Hm : map (fun m : string * bool => SStr (str (fst m))) ms = map SStr names) by (rewrite Hn, map_map; reflexivity).
  rewrite Hm. assert (El : List.length l = List.length names) by (now rewrite Hl).
  assert (Ec : collect names (combine (map SStr names) l) [] = Some (rev (combine names l))).
  { apply collect_some; [constructor|]. exists (combine names l). rewrite app_nil_r. split; [apply ids_combine; auto|]. split; [|reflexivity].
    rewrite map_rev, combine_fst by exact El. apply NoDup_rev, Nd. }
  rewrite Ec. apply G, agree_refl. intros n. apply field_perm; [now rewrite combine_fst|]. apply Permutation_rev.
Qed.

Section Structs.
Context `{X : Ext} `{C : Cfg} `{SX : SerdeExt}.
Lemma struct_lookup A ms (c : codec A) : struct_type A ms c -> exists names, lookup names ms (c_de c).
Proof.
  intros H. destruct H; eexists; first [exact psbt_lookup | exact global_lookup | exact input_lookup | exact output_lookup
    | exact psbt0_lookup | exact input0_lookup | exact output0_lookup | exact key_lookup | exact raw_pair_lookup
    | exact propkey_lookup | exact sighash_lookup].
Qed.
Lemma str_inj a b : str a = str b -> a = b.
Proof.
  unfold str. revert b. induction a as [|x a IH]; intros [|y b]; cbn; try discriminate; [reflexivity|].
  intros [= E1 E2]. f_equal; [|now apply IH].
  rewrite <- (Ascii.ascii_of_byte_of_ascii x), <- (Ascii.ascii_of_byte_of_ascii y). now f_equal.
Qed.
Lemma member_in ms n : is_member ms n <-> In n (map (fun m => str (fst m)) ms).
Proof.
  unfold is_member. rewrite in_map_iff. split.
  - intros (s & o & H & ->). now exists (s, o).
  - intros ([s o] & <- & H). now exists s, o.
Qed.
Lemma names_member_id ms k s : In s (map fst ms) ->
  field_id (map (fun m : string * bool => str (fst m)) ms) k = Some (Some (str s)) <-> names_member ms k s.
Proof.
  intros Hs. unfold names_member.
  assert (E : forall b, existsb (bytes_eqb b) (map (fun m : string * bool => str (fst m)) ms) = true -> Some (Some b) = Some (Some (str s)) <-> b = str s).
  { intros b _. split; [now intros [= ->]|now intros ->]. }
  assert (M : existsb (bytes_eqb (str s)) (map (fun m : string * bool => str (fst m)) ms) = true).
  { apply existsb_exists. exists (str s). split; [|apply bytes_eqb_refl]. apply in_map_iff in Hs as (m & <- & Hm). apply in_map_iff. now exists m. }
  destruct k; cbn [field_id].
  1, 2, 6, 7: split; [discriminate|intros [?|[?|(? & ? & ? & _)]]; discriminate].
  - rewrite nth_error_map. split.
    + intros [= H]. destruct (nth_error ms (N.to_nat n)) as [[s' o]|] eqn:G; [|discriminate]. cbn in H. injection H as H.
      apply str_inj in H. subst. right. right. now exists n, o.
    + intros [?|[?|(i & o & [= <-] & ->)]]; try discriminate. reflexivity.
  - split.
    + match goal with |- context [existsb ?p ?l] => destruct (existsb p l) end; [|discriminate]. intros Q. injection Q as Q. left. now f_equal.
    + intros [[= ->]|[?|(? & ? & ? & _)]]; try discriminate. now rewrite M.
  - split.
    + match goal with |- context [existsb ?p ?l] => destruct (existsb p l) end; [|discriminate]. intros Q. injection Q as Q. right. left. now f_equal.
    + intros [?|[[= ->]|(? & ? & ? & _)]]; try discriminate. now rewrite M.
Qed.
Fixpoint distinct (l : list bytes) : bool := match l with [] => true | a :: r => negb (existsb (bytes_eqb a) r) && distinct r end.
Lemma distinct_nodup l : distinct l = true -> NoDup l.
Proof.
  induction l as [|a l IH]; cbn; intros H; constructor; apply Bool.andb_true_iff in H as [H1 H2]; [|now apply IH].
  intros Hi. apply Bool.negb_true_iff in H1. assert (existsb (bytes_eqb a) l = true); [|congruence].
  apply existsb_exists. exists a. split; [exact Hi|apply bytes_eqb_refl].
Qed.
Lemma struct_nodup A ms (c : codec A) : struct_type A ms c -> NoDup (map (fun m => str (fst m)) ms).
Proof.
  intros H. apply distinct_nodup. destruct H; try reflexivity;
    [unfold global_members|unfold input_members|unfold output_members]; destruct feat_sp; reflexivity.
Qed.
End Structs.

(** ** Builds with and without silent-payments *)
Section Features.
Context `{X : Ext} `{SX : SerdeExt} {LS : SerdeLaws X SX} (C C' : Cfg).

Lemma read_without (Hn : @feat_sp C = false) (Hy : @feat_sp C' = true) f p : de_psbt (C := C') f (ser_psbt (C := C) f p) = None.
Proof.
  destruct (de_psbt (C := C') f (ser_psbt (C := C) f p)) as [q|] eqn:E; [exfalso|reflexivity].
  unfold ser_psbt in E. apply (psbt_vals_inv (C := C')) in E as (E & _). cbn [c_de c_ser c_global] in E.
  assert (M : In ("sp_ecdh_shares"%string, false) (global_members (C := C'))).
  { unfold global_members. rewrite Hy. cbn. tauto. }
  unfold ser_global, ser_struct in E. destruct (lookup_missing _ _ _ (global_lookup (C := C')) f _ _ _ M E) as (k & v & Hi & Hk).
  unfold sp_fields in Hi. rewrite Hn in Hi. cbn [app map fst snd In] in Hi.
  repeat (destruct Hi as [Hi|Hi]; [apply (f_equal fst) in Hi; cbn [fst] in Hi; subst k; unfold global_fields, sp_fields in Hk; rewrite Hy in Hk; vm_compute in Hk; discriminate|]).
  exact Hi.
Qed.

Lemma is_not ms s : existsb (fun m : string * bool => bytes_eqb s (str (fst m))) ms = false -> ~ In s (map (fun m => str (fst m)) ms).
Proof.
  intros H Hi. apply in_map_iff in Hi as (m & <- & Hm).
  assert (existsb (fun m0 : string * bool => bytes_eqb (str (fst m)) (str (fst m0))) ms = true); [|congruence].
  apply existsb_exists. exists m. split; [exact Hm|apply bytes_eqb_refl].
Qed.
Context (Hy : @feat_sp C = true) (Hn : @feat_sp C' = false).
Lemma global_dropped f g : typed_global (C := C) g -> de_global (C := C') f (ser_global (C := C) f g) = Some (drop_sp_global g).
Proof.
  intros T. transitivity (de_global (C := C') f (ser_global (C := C') f (drop_sp_global g))).
  - unfold ser_global, sp_fields. rewrite Hy, Hn. unfold ser_struct. rewrite !map_app.
    match goal with |- _ = de_global f (SMap (?l ++ _ ++ _ ++ ?r)) =>
      match goal with |- de_global f (SMap (_ ++ ?s1 ++ ?s2 ++ ?r0)) = _ =>
        change (de_global (C := C') f (SMap (l ++ s1 ++ s2 ++ r)) = de_global (C := C') f (SMap (l ++ r)));
        generalize l as l0; generalize r as r1 end end. intros r1 l0. cbn [map fst snd app].
    rewrite (lookup_unknown _ _ _ (global_lookup (C := C'))), (lookup_unknown _ _ _ (global_lookup (C := C'))); [reflexivity| |];
      apply is_not; unfold global_members; rewrite Hn; reflexivity.
  - apply (global_back (C := C')). destruct T. destruct g. constructor; cbn in *; try assumption; unfold sp_field; now rewrite Hn.
Qed.
Lemma input_dropped f i : typed_input (C := C) i -> (f_hr f = true -> f_lends f = true \/ no_preimages i) ->
  de_input (C := C') f (ser_input (C := C) f i) = Some (drop_sp_input i).
Proof.
  intros T L. transitivity (de_input (C := C') f (ser_input (C := C') f (drop_sp_input i))).
  - unfold ser_input, sp_fields. rewrite Hy, Hn. unfold ser_struct. rewrite !map_app.
    match goal with |- _ = de_input f (SMap (?l ++ _ ++ _ ++ ?r)) =>
      match goal with |- de_input f (SMap (_ ++ ?s1 ++ ?s2 ++ ?r0)) = _ =>
        change (de_input (C := C') f (SMap (l ++ s1 ++ s2 ++ r)) = de_input (C := C') f (SMap (l ++ r)));
        generalize l as l0; generalize r as r1 end end. intros r1 l0. cbn [map fst snd app].
    rewrite (lookup_unknown _ _ _ (input_lookup (C := C'))), (lookup_unknown _ _ _ (input_lookup (C := C'))); [reflexivity| |];
      apply is_not; unfold input_members; rewrite Hn; reflexivity.
  - apply (input_back (C := C')); [|exact L]. destruct T. destruct i. constructor; cbn in *; try assumption; unfold sp_field; now rewrite Hn.
Qed.
Lemma output_dropped f o : typed_output (C := C) o -> exists o', de_output (C := C') f (ser_output (C := C) f o) = Some o' /\ output_eq (drop_sp_output o) o'.
Proof.
  intros T. assert (E : de_output (C := C') f (ser_output (C := C) f o) = de_output (C := C') f (ser_output (C := C') f (drop_sp_output o))).
  - unfold ser_output, sp_fields. rewrite Hy, Hn. unfold ser_struct. rewrite !map_app.
    match goal with |- _ = de_output f (SMap (?l ++ _ ++ _ ++ ?r)) =>
      match goal with |- de_output f (SMap (_ ++ ?s1 ++ ?s2 ++ ?r0)) = _ =>
        change (de_output (C := C') f (SMap (l ++ s1 ++ s2 ++ r)) = de_output (C := C') f (SMap (l ++ r)));
        generalize l as l0; generalize r as r1 end end. intros r1 l0. cbn [map fst snd app].
    rewrite (lookup_unknown _ _ _ (output_lookup (C := C'))), (lookup_unknown _ _ _ (output_lookup (C := C'))); [reflexivity| |];
      apply is_not; unfold output_members; rewrite Hn; reflexivity.
  - rewrite E. apply (output_back (C := C')). destruct T. destruct o. constructor; cbn in *; try assumption; unfold sp_field; now rewrite Hn.
Qed.
Lemma psbt_dropped f p : typed_psbt (C := C) p -> (f_hr f = true -> f_lends f = true \/ Forall no_preimages (p_inputs p)) ->
  exists q, de_psbt (C := C') f (ser_psbt (C := C) f p) = Some q /\ psbt_eq (drop_sp p) q.
Proof.
  intros T L.
  assert (HI : de_all (de_input (C := C') f) (map (ser_input (C := C) f) (p_inputs p)) = Some (map drop_sp_input (p_inputs p))).
  { pose proof (typ_inputs _ T) as Hi. apply de_all_iff.
    assert (L' : Forall (fun i => f_hr f = true -> f_lends f = true \/ no_preimages i) (p_inputs p)).
    { apply Forall_forall. intros i Ii E. destruct (L E) as [?|F]; [now left|right]. rewrite Forall_forall in F. now apply F. }
    clear L. induction Hi as [|i l Hi _ IH]; cbn [map]; constructor; inversion L'; subst; [now apply input_dropped|now apply IH]. }
  destruct (de_all_rel (fun o o' => output_eq (drop_sp_output o) o') (ser_output (C := C) f) (de_output (C := C') f) (p_outputs p)) as (os & Ho & Fo).
  { eapply Forall_impl; [|exact (typ_outputs _ T)]. intros o. apply output_dropped. }
  exists (Psbt (drop_sp_global (p_global p)) (map drop_sp_input (p_inputs p)) os). split.
  - unfold ser_psbt. apply (psbt_vals (C := C')); [exact (global_dropped f _ (typ_global _ T))|exact HI|exact Ho].
  - split; [reflexivity|split; [reflexivity|]]. cbn [p_outputs drop_sp]. clear Ho. induction Fo; cbn; constructor; auto.
Qed.
End Features.

(** ** Decoded PSBTs are values of the types *)
Section Wf.
Context `{X : Ext} `{C : Cfg}.
Lemma map_of_imp {K V} (sk : K -> list N) (P P' : K -> Prop) (Q Q' : V -> Prop) m :
  (forall k, P k -> P' k) -> (forall v, Q v -> Q' v) -> map_of sk P Q m -> map_of sk P' Q' m.
Proof. intros H1 H2 [S F]. split; [exact S|]. eapply Forall_impl; [|exact F]. cbn. intros [k v] [A B]. auto. Qed.
Lemma opt_of_imp {A} (P Q : A -> Prop) o : (forall a, P a -> Q a) -> opt_of P o -> opt_of Q o.
Proof. destruct o; cbn; auto. Qed.
Lemma sp_imp {A} (P Q : A -> Prop) e a : (forall a, P a -> Q a) -> sp_field P e a -> sp_field Q e a.
Proof. unfold sp_field. destruct feat_sp; auto. Qed.
Lemma any_all {A} (P : A -> Prop) : forall a, P a -> any a.
Proof. intros; exact I. Qed.
Lemma ks_typed k : wf_keysource k -> typed_keysource k.
Proof. intros (A & B & _). split; [exact A|exact B]. Qed.
Lemma tx_typed t : wf_tx t -> typed_tx t.
Proof.
  intros (A & B & _ & D & _ & F). split; [exact A|split; [exact B|split]].
  - eapply Forall_impl; [|exact D]. intros i (I1 & I2 & _ & I4 & _). split; [exact I1|split; [exact I2|exact I4]].
  - eapply Forall_impl; [|exact F]. intros o [O _]. exact O.
Qed.
Lemma txv_typed t : wf_tx_v t -> typed_tx t.
Proof. intros H. apply tx_typed. apply H. Qed.
Lemma txout_typed o : wf_txout_v o -> typed_txout o.
Proof. intros [[H _] _]. exact H. Qed.
Lemma leafscript_typed p : wf_leafscript p -> typed_leafscript p.
Proof. intros [_ H]. exact H. Qed.
Lemma origin_typed p : wf_taporigin p -> typed_taporigin p.
Proof. intros (A & B & D & _). split; [exact A|]. split; [exact B|exact D]. Qed.
Lemma taptree_typed t : wf_taptree t -> typed_taptree t.
Proof. intros (A & B). split; [exact A|]. revert B. unfold MAX_VALUE, U64. lia. Qed.
Lemma pre_typed n h m : preimages n h m -> map_of bkey (has_len n) any m.
Proof. intros [H _]. revert H. apply map_of_imp; [auto|apply any_all]. Qed.

Ltac typed_field := first
  [ assumption
  | exact I
  | eapply opt_of_imp; [|eassumption]; first [apply any_all | exact txv_typed | exact txout_typed | exact taptree_typed]
  | eapply map_of_imp; [| |eassumption]; first [apply any_all | exact ks_typed | exact leafscript_typed | exact origin_typed | tauto]
  | eapply pre_typed; eassumption
  | eapply sp_imp; [|eassumption]; intros a; apply opt_of_imp; apply any_all ].

Lemma global_typed g : wf_global g -> typed_global g.
Proof.
  intros []. constructor; try typed_field. rewrite wg_version. unfold wf_u32, U32. lia.
Qed.
Lemma input_typed i : wf_input i -> typed_input i.
Proof.
  intros []. constructor; try typed_field. revert wi_index. unfold wf_u32, U32. lia.
Qed.
Lemma output_typed o : wf_output o -> typed_output o.
Proof. intros []. constructor; try typed_field. Qed.
Lemma psbt_typed p : wf_psbt p -> typed_psbt p.
Proof.
  intros []. constructor; [now apply global_typed| |]; (eapply Forall_impl; [|eassumption]); [apply input_typed|apply output_typed].
Qed.
Lemma input0_typed i : wf_input0 i -> typed_input0 i.
Proof. intros []. constructor; try typed_field. Qed.
Lemma output0_typed o : wf_output0 o -> typed_output0 o.
Proof. intros []. constructor; try typed_field. Qed.
Lemma psbt0_typed p : wf_psbt0 p -> typed_psbt0 p.
Proof.
  intros []. constructor; try typed_field; [now apply tx_typed|rewrite wp0_version; unfold wf_u32, U32; lia| |];
    (eapply Forall_impl; [|eassumption]); [apply input0_typed|apply output0_typed].
Qed.
End Wf.

(** Facts: PSBTs pass through builds without the feature silent-payments. *)
From Coq Require Import List Permutation.
From Verif Require Import Base OMap Consensus ConsensusFacts Ext Raw RawFacts TapTree SpecCodec SpecCodecFacts Serialize SerializeFacts
  MapCodec MapFacts V2Global V2Input V2Output V2Psbt V2Roles SpecPsbt V2PsbtFacts V2WireFacts V2PairFacts SpecSerde SpecBuilds SpecErrors SpecAccept AcceptAllFacts.
Local Open Scope N_scope.

(** ** Sorted maps *)

Lemma exists_sorted (l : list (key * bytes)) : NoDup (map fst l) ->
  exists m, m_sorted sk_key m /\ Permutation m l.
Proof.
  induction l as [|[k v] l IH]; cbn [map fst]; intros H.
  - exists []. split; constructor.
  - apply NoDup_cons_iff in H as [H1 H2]. destruct (IH H2) as (m & S1 & S2).
    exists (m_put sk_key k v m). split; [apply m_put_sorted; [exact sk_key_inj|exact S1]|].
    transitivity ((k, v) :: m); [apply m_put_permutation|now constructor].
    destruct (m_get sk_key k m) eqn:E; auto. apply (m_get_in _ sk_key_inj) in E. exfalso. apply H1.
    apply (Permutation_in _ S2) in E. apply in_map_iff. now exists (k, b).
Qed.

Lemma sorted_nodup {K V} (sk : K -> list N) (m : list (K * V)) :
  m_sorted sk m -> NoDup (map fst m).
Proof.
  unfold m_sorted. induction (map fst m) as [|k r IH]; intros H; constructor; inversion H as [|? ? H1 H2]; subst; auto.
  intros Hin. rewrite Forall_forall in H2. specialize (H2 _ Hin). unfold key_lt in H2. now rewrite lex_refl in H2.
Qed.

Lemma raw_entries_types t m k : In k (map fst (raw_entries t m)) -> k_type k = t.
Proof. unfold raw_entries. rewrite map_map. cbn. intros (kv & <- & _)%in_map_iff. reflexivity. Qed.
Lemma raw_entry_types t o k : In k (map fst (raw_entry t o)) -> k_type k = t.
Proof. destruct o; cbn; intros []; subst; [reflexivity|contradiction]. Qed.
Lemma raw_entries_nodup t m : NoDup (map fst m) -> NoDup (map fst (raw_entries t m)).
Proof.
  unfold raw_entries. rewrite map_map. cbn. induction m as [|[a b] m IH]; cbn; intros H; constructor;
    apply NoDup_cons_iff in H as [H1 H2]; auto.
  intros (kv & E & Hin)%in_map_iff. injection E as E. apply H1. rewrite <- E. now apply in_map.
Qed.
Lemma raw_entry_nodup t o : NoDup (map fst (raw_entry t o)).
Proof. destruct o; cbn; repeat constructor; auto. Qed.

Lemma nodup_app {A} (a b : list A) : NoDup a -> NoDup b -> (forall x, In x a -> ~ In x b) -> NoDup (a ++ b).
Proof.
  induction a as [|x a IH]; cbn; intros H1 H2 H; auto. apply NoDup_cons_iff in H1 as [H1 H3]. constructor.
  - rewrite in_app_iff. intros [Q|Q]; auto. now apply (H x); [left|].
  - apply IH; auto.
Qed.

(** ** Pair lists *)

Lemma unknown_raw t m : unknown_pairs (raw_entries t m) = map_pairs t (fun k => k) (fun v => v) m.
Proof. unfold unknown_pairs, raw_entries, map_pairs. now rewrite map_map. Qed.
Lemma unknown_raw1 t o : unknown_pairs (raw_entry t o) = opt_pairs t (fun v => v) o.
Proof. now destruct o. Qed.
Lemma unknown_app a b : unknown_pairs (a ++ b) = unknown_pairs a ++ unknown_pairs b.
Proof. apply map_app. Qed.

Definition sel (ts : list byte) (p : pair) : bool := existsb (beq (k_type (p_key p))) ts.
Lemma sel_opt {A} ts t (f : A -> bytes) o : existsb (beq t) ts = false -> filter (sel ts) (opt_pairs t f o) = [].
Proof. intros H. destruct o; cbn; auto. unfold sel. cbn. now rewrite H. Qed.
Lemma sel_map {A B} ts t (f : A -> bytes) (g : B -> bytes) m : existsb (beq t) ts = false -> filter (sel ts) (map_pairs t f g m) = [].
Proof. intros H. induction m as [|kv m IH]; cbn; auto. unfold sel at 1. cbn. now rewrite H. Qed.
Lemma sel_props ts m : existsb (beq xfc) ts = false -> filter (sel ts) (prop_pairs m) = [].
Proof. intros H. induction m as [|kv m IH]; cbn; auto. unfold sel at 1. cbn. now rewrite H. Qed.
Lemma sel_unknowns ts (known : byte -> bool) (m : list (key * bytes)) :
  Forall (fun kv => known (k_type (fst kv)) = false) m -> forallb known ts = true -> filter (sel ts) (unknown_pairs m) = [].
Proof.
  intros H Hk. induction H as [|kv m H _ IH]; cbn; auto. unfold sel at 1. cbn.
  destruct (existsb (beq (k_type (fst kv))) ts) eqn:E; auto.
  apply existsb_exists in E as (t & Ht & E). apply beq_eq in E. subst t.
  rewrite forallb_forall in Hk. specialize (Hk _ Ht). congruence.
Qed.

(** The shape of a map with and without the feature. *)
Lemma reordered_tail tss (hd mid sp ps ps' : list pair) :
  Permutation ps' (ps ++ sp) ->
  (forall ts, In ts tss -> filter (sel ts) mid = [] /\ filter (sel ts) sp = [] /\ filter (sel ts) ps = []) ->
  reordered tss (hd ++ sp ++ mid ++ ps) (hd ++ mid ++ ps') /\ reordered tss (hd ++ mid ++ ps') (hd ++ sp ++ mid ++ ps).
Proof.
  intros P H. assert (Q : Permutation (hd ++ sp ++ mid ++ ps) (hd ++ mid ++ ps')).
  { apply Permutation_app_head. rewrite P, (app_assoc mid ps sp). apply Permutation_app_comm. }
  assert (F : forall ts, In ts tss -> filter (sel ts) (hd ++ sp ++ mid ++ ps) = filter (sel ts) (hd ++ mid ++ ps')).
  { intros ts Ht. destruct (H ts Ht) as (H1 & H2 & H3). rewrite !filter_app, H1, H2, H3. cbn [app]. f_equal.
    pose proof (Permutation_filter (sel ts) _ _ P) as E. rewrite filter_app, H3, H2 in E. cbn [app] in E.
    symmetry in E. now apply Permutation_nil in E. }
  split; split; [exact Q|intros ts Ht; right; now apply F|now symmetry|intros ts Ht; right; symmetry; now apply F].
Qed.

Lemma le32_enc n : le32 n = le_enc 4 n.
Proof.
  unfold le32. cbn [le_enc].
  assert (E : forall a, n2b (a mod 256) = n2b a) by (intros a; unfold n2b; now rewrite N.mod_mod by easy).
  rewrite !E, !N.div_div by easy. reflexivity.
Qed.

Lemma entries_nodup (u a b : list (key * bytes)) (ta tb : byte) (known : byte -> bool) :
  NoDup (map fst u) -> NoDup (map fst a) -> NoDup (map fst b) ->
  (forall k, In k (map fst u) -> known (k_type k) = false) ->
  (forall k, In k (map fst a) -> k_type k = ta) -> (forall k, In k (map fst b) -> k_type k = tb) ->
  known ta = true -> known tb = true -> ta <> tb ->
  NoDup (map fst (u ++ a ++ b)).
Proof.
  intros U A B Hu Ha Hb Ka Kb N. rewrite !map_app. apply nodup_app; [exact U| |].
  - apply nodup_app; auto. intros k H1%Ha H2%Hb. congruence.
  - intros k H1%Hu H2. apply in_app_iff in H2 as [H2%Ha|H2%Hb]; congruence.
Qed.

Section TwoBuilds.
Context `{X : Ext} {L : ExtLaws X} (C C' : Cfg).
Hypothesis Hsp : @feat_sp C = true.
Hypothesis Hno : @feat_sp C' = false.

(** ** Every PSBT has a plain form *)


Lemma unknown_entries_fresh (m : list (key * bytes)) (known : byte -> bool) (Q : key -> Prop) (V : bytes -> Prop) :
  Forall (fun kv => (unknown_key known (fst kv) /\ Q (fst kv)) /\ V (snd kv)) m ->
  forall k, In k (map fst m) -> known (k_type k) = false.
Proof. intros H k (kv & <- & Hin)%in_map_iff. rewrite Forall_forall in H. now destruct (H _ Hin) as (((_ & ? & _) & _) & _). Qed.

Lemma plain_global_exists g : wf_global (C := C) g -> exists h, plain_global g h.
Proof.
  intros [_ _ _ _ _ _ _ H8 H9 _ _ [S U]].
  unfold sp_field in H8, H9. rewrite Hsp in H8, H9.
  destruct (exists_sorted (g_unknowns g ++ raw_entries x07 (g_sp_ecdh_shares g) ++ raw_entries x08 (g_sp_dleq_proofs g))) as (m & M1 & M2).
  { apply (entries_nodup _ _ _ x07 x08 (global_type (C := C))); try apply raw_entries_types; try discriminate.
    - now apply (sorted_nodup sk_key).
    - apply raw_entries_nodup, (sorted_nodup bkey), H8.
    - apply raw_entries_nodup, (sorted_nodup bkey), H9.
    - exact (unknown_entries_fresh _ _ (fun k => k_type k <> x00) wf_value U).
    - unfold global_type. now rewrite Hsp.
    - unfold global_type. now rewrite Hsp. }
  exists (set_g_unknowns m (drop_sp_global g)). repeat split; assumption.
Qed.

Lemma plain_input_exists i : wf_input (C := C) i -> exists j, plain_input i j.
Proof.
  intros W. pose proof (wi_shares _ W) as H8. pose proof (wi_proofs _ W) as H9. destruct (wi_unknowns _ W) as [S U].
  unfold sp_field in H8, H9. rewrite Hsp in H8, H9.
  destruct (exists_sorted (in_unknowns i ++ raw_entries x1d (in_sp_ecdh_shares i) ++ raw_entries x1e (in_sp_dleq_proofs i))) as (m & M1 & M2).
  { apply (entries_nodup _ _ _ x1d x1e (input_type (C := C))); try apply raw_entries_types; try discriminate.
    - now apply (sorted_nodup sk_key).
    - apply raw_entries_nodup, (sorted_nodup bkey), H8.
    - apply raw_entries_nodup, (sorted_nodup bkey), H9.
    - apply (unknown_entries_fresh _ _ (fun _ => True) wf_value). eapply Forall_impl; [|exact U]. cbn beta. tauto.
    - unfold input_type. now rewrite Hsp.
    - unfold input_type. now rewrite Hsp. }
  exists (set_in_unknowns m (drop_sp_input i)). repeat split; assumption.
Qed.

Lemma plain_output_exists o : wf_output (C := C) o -> exists u, plain_output o u.
Proof.
  intros W. destruct (wo_unknowns _ W) as [S U].
  destruct (exists_sorted (out_unknowns o ++ raw_entry x09 (out_sp_v0_info o) ++ raw_entry x0a (option_map le32 (out_sp_v0_label o)))) as (m & M1 & M2).
  { apply (entries_nodup _ _ _ x09 x0a (output_type_key (C := C))); try apply raw_entry_types; try apply raw_entry_nodup; try discriminate.
    - now apply (sorted_nodup sk_key).
    - apply (unknown_entries_fresh _ _ (fun _ => True) wf_value). eapply Forall_impl; [|exact U]. cbn beta. tauto.
    - unfold output_type_key. now rewrite Hsp.
    - unfold output_type_key. now rewrite Hsp. }
  exists (set_out_unknowns m (drop_sp_output o)). repeat split; assumption.
Qed.

Lemma F2_exists {A B} (R : A -> B -> Prop) l : Forall (fun a => exists b, R a b) l -> exists l', Forall2 R l l'.
Proof. induction 1 as [|a l [b H] _ [l' IH]]; [now exists []|]. exists (b :: l'). now constructor. Qed.

Lemma plain_exists p : wf_psbt (C := C) p -> exists q, plain p q.
Proof.
  intros W. destruct (plain_global_exists _ (wp_global _ W)) as (h & Hh).
  destruct (F2_exists plain_input (p_inputs p)) as (js & Hj).
  { eapply Forall_impl; [|apply (wp_inputs _ W)]. apply plain_input_exists. }
  destruct (F2_exists plain_output (p_outputs p)) as (us & Hu).
  { eapply Forall_impl; [|apply (wp_outputs _ W)]. apply plain_output_exists. }
  now exists (Psbt h js us).
Qed.

(** ** The plain form is well-formed in the other build *)

Lemma wf_raw (m u : list (key * bytes)) (known known' : byte -> bool) (Q : key -> Prop) a b :
  (forall t, known t = false -> known' t = false) ->
  Forall (fun kv => (unknown_key known (fst kv) /\ Q (fst kv)) /\ wf_value (snd kv)) u ->
  Forall (fun kv => (unknown_key known' (fst kv) /\ Q (fst kv)) /\ wf_value (snd kv)) a ->
  Forall (fun kv => (unknown_key known' (fst kv) /\ Q (fst kv)) /\ wf_value (snd kv)) b ->
  Permutation m (u ++ a ++ b) ->
  Forall (fun kv => (unknown_key known' (fst kv) /\ Q (fst kv)) /\ wf_value (snd kv)) m.
Proof.
  intros K U A B P. eapply Permutation_Forall; [symmetry; exact P|]. rewrite !Forall_app. repeat split; auto.
  eapply Forall_impl; [|exact U]. unfold unknown_key. cbn beta. intuition.
Qed.

Lemma wf_secp_len k : wf_secp k -> length k = 33%nat.
Proof. apply secp_parse_len. Qed.
Lemma wf_raw_entries t (known' : byte -> bool) (Q : key -> Prop) (wfv : bytes -> Prop) n (m : list (bytes * bytes)) :
  known' t = false -> proprietary_type t = false -> (forall d, Q (Key t d)) -> n <= 64 ->
  (forall v, wfv v -> blen v <= n) ->
  map_of bkey wf_secp wfv m ->
  Forall (fun kv => (unknown_key known' (fst kv) /\ Q (fst kv)) /\ wf_value (snd kv)) (raw_entries t m).
Proof.
  intros K P HQ Hn Hv [_ F]. unfold raw_entries. apply Forall_map. eapply Forall_impl; [|exact F].
  cbn. intros [k v] [H1 H2]. cbn in *. apply wf_secp_len in H1. apply Hv in H2. repeat split; auto.
  - unfold wf_key. cbn. unfold blen. rewrite H1. now compute.
  - unfold wf_value, MAX_VALUE. lia.
Qed.

Lemma global_type_less t : global_type (C := C) t = false -> global_type (C := C') t = false.
Proof. unfold global_type. rewrite Hsp, Hno. destruct existsb; cbn; auto. Qed.
Lemma input_type_less t : input_type (C := C) t = false -> input_type (C := C') t = false.
Proof. unfold input_type. rewrite Hsp, Hno. destruct existsb; cbn; auto. Qed.
Lemma output_type_less t : output_type_key (C := C) t = false -> output_type_key (C := C') t = false.
Proof. unfold output_type_key. rewrite Hsp, Hno. destruct existsb; cbn; auto. Qed.

Lemma secp_short v : wf_secp v -> blen v <= 64.
Proof. intros H%wf_secp_len. unfold blen. lia. Qed.
Lemma dleq_short v : wf_dleq v -> blen v <= 64.
Proof. unfold wf_dleq, blen. lia. Qed.

Lemma plain_global_eq g h : plain_global g h -> h = set_g_unknowns (g_unknowns h) (drop_sp_global g).
Proof. intros (E & _). apply (f_equal (set_g_unknowns (g_unknowns h))) in E. destruct h. symmetry. exact E. Qed.
Lemma plain_input_eq i j : plain_input i j -> j = set_in_unknowns (in_unknowns j) (drop_sp_input i).
Proof. intros (E & _). apply (f_equal (set_in_unknowns (in_unknowns j))) in E. destruct j. symmetry. exact E. Qed.
Lemma plain_output_eq o u : plain_output o u -> u = set_out_unknowns (out_unknowns u) (drop_sp_output o).
Proof. intros (E & _). apply (f_equal (set_out_unknowns (out_unknowns u))) in E. destruct u. symmetry. exact E. Qed.

Lemma plain_global_wf g h : wf_global (C := C) g -> plain_global g h -> wf_global (C := C') h.
Proof.
  intros W Hp. pose proof (plain_global_eq _ _ Hp) as E. destruct Hp as (_ & S & P).
  destruct W as [H1 H2 H3 H4 H5 H6 H7 H8 H9 H10 H11 H12]. unfold sp_field in H8, H9. rewrite Hsp in H8, H9.
  set (m := g_unknowns h) in *. clearbody m. subst h. destruct H12 as [_ U].
  constructor; cbn; auto; try (unfold sp_field; rewrite Hno; reflexivity); try tauto.
  split; [exact S|]. eapply (wf_raw m _ _ _ (fun k => k_type k <> x00) _ _ global_type_less U); [| |exact P].
  - apply wf_raw_entries with (Q := fun k => k_type k <> x00) (wfv := wf_secp) (n := 64); auto using secp_short; try discriminate; try lia.
    unfold global_type. now rewrite Hno.
  - apply wf_raw_entries with (Q := fun k => k_type k <> x00) (wfv := wf_dleq) (n := 64); auto using dleq_short; try discriminate; try lia.
    unfold global_type. now rewrite Hno.
Qed.

Lemma plain_input_wf i j : wf_input (C := C) i -> plain_input i j -> wf_input (C := C') j.
Proof.
  intros W Hp. pose proof (plain_input_eq _ _ Hp) as E. destruct Hp as (_ & S & P).
  pose proof (wi_shares _ W) as H8. pose proof (wi_proofs _ W) as H9. unfold sp_field in H8, H9. rewrite Hsp in H8, H9.
  pose proof (wi_unknowns _ W) as [_ U].
  set (m := in_unknowns j) in *. clearbody m. subst j.
  destruct W. constructor; cbn; auto; try (unfold sp_field; rewrite Hno; reflexivity); try tauto.
  split; [exact S|].
  eapply Forall_impl; [|eapply (wf_raw m _ _ _ (fun _ => True) _ _ input_type_less); [| | |exact P]]; [cbn beta; tauto| | |].
  - eapply Forall_impl; [|exact U]. cbn beta. tauto.
  - apply wf_raw_entries with (Q := fun _ => True) (wfv := wf_secp) (n := 64); auto using secp_short; try discriminate; try lia.
    unfold input_type. now rewrite Hno.
  - apply wf_raw_entries with (Q := fun _ => True) (wfv := wf_dleq) (n := 64); auto using dleq_short; try discriminate; try lia.
    unfold input_type. now rewrite Hno.
Qed.

Lemma plain_output_wf o u : wf_output (C := C) o -> out_script_pubkey o <> [] -> plain_output o u -> wf_output (C := C') u.
Proof.
  intros W Hs Hp. pose proof (plain_output_eq _ _ Hp) as E. destruct Hp as (_ & S & P).
  pose proof (wo_info _ W) as H8. pose proof (wo_label _ W) as H9. unfold sp_field in H8, H9. rewrite Hsp in H8, H9.
  pose proof (wo_unknowns _ W) as [_ U].
  set (m := out_unknowns u) in *. clearbody m. subst u.
  destruct W. constructor; cbn; auto; try (unfold sp_field; rewrite Hno; reflexivity); try tauto.
  split; [exact S|].
  eapply Forall_impl; [|eapply (wf_raw m _ _ _ (fun _ => True) _ _ output_type_less); [| | |exact P]]; [cbn beta; tauto| | |].
  - eapply Forall_impl; [|exact U]. cbn beta. tauto.
  - destruct (out_sp_v0_info o) as [v|]; cbn; repeat constructor; cbn in *; try (unfold output_type_key; now rewrite Hno); try easy.
    unfold wf_value, blen, MAX_VALUE. rewrite H8. now compute.
  - destruct (out_sp_v0_label o) as [v|]; cbn; repeat constructor; cbn in *; try (unfold output_type_key; now rewrite Hno); try easy.
Qed.

Lemma F2_Forall {A B} (R : A -> B -> Prop) (P : A -> Prop) (Q : B -> Prop) l l' :
  (forall a b, R a b -> P a -> Q b) -> Forall2 R l l' -> Forall P l -> Forall Q l'.
Proof. intros H. induction 1 as [|a b l l' H1 _ IH]; intros F; constructor; inversion F; subst; eauto. Qed.
Lemma F2_blen {A B} (R : A -> B -> Prop) l l' : Forall2 R l l' -> blen l' = blen l.
Proof. unfold blen. induction 1; cbn; lia. Qed.

Definition room (p : psbt) : Prop :=
  blen (p_inputs p) * @size_input C' <= ISIZE_MAX /\ blen (p_outputs p) * @size_output C' <= ISIZE_MAX.

Lemma plain_wf p q : wf_psbt (C := C) p -> plain p q -> room p -> Forall (fun o => out_script_pubkey o <> []) (p_outputs p) ->
  wf_psbt (C := C') q.
Proof.
  intros W (Hg & Hi & Ho) [F1 F2] Hs. pose proof (F2_blen _ _ _ Hi) as N1. pose proof (F2_blen _ _ _ Ho) as N2.
  pose proof (plain_global_eq _ _ Hg) as E.
  constructor; try rewrite N1; try rewrite N2; auto.
  - eapply plain_global_wf; [apply (wp_global _ W)|exact Hg].
  - eapply (F2_Forall _ _ _ _ _ _ Hi (wp_inputs _ W)). Unshelve. intros a b H1 H2. now apply plain_input_wf in H1.
  - assert (Z : Forall (fun o => wf_output (C := C) o /\ out_script_pubkey o <> []) (p_outputs p)).
    { apply Forall_and; [apply (wp_outputs _ W)|exact Hs]. }
    eapply (F2_Forall _ _ _ _ _ _ Ho Z). Unshelve. intros a b H1 [H2 H3]. now apply plain_output_wf in H1.
  - rewrite E. exact (wp_input_count _ W).
  - rewrite E. exact (wp_output_count _ W).
Qed.

Lemma plain_ties p q : plain p q -> no_tap_ties p -> no_tap_ties q.
Proof.
  intros (_ & _ & Ho) H. unfold no_tap_ties in *. eapply (F2_Forall _ _ _ _ _ _ Ho H). Unshelve.
  intros a b H1%plain_output_eq. cbn beta. rewrite H1. exact (fun x => x).
Qed.

(** ** Both write the same pairs *)

Lemma Fknown known (Q : key -> Prop) (V : bytes -> Prop) m :
  Forall (fun kv => (unknown_key known (fst kv) /\ Q (fst kv)) /\ V (snd kv)) m -> Forall (fun kv : key * bytes => known (k_type (fst kv)) = false) m.
Proof. apply Forall_impl. intros a (((_ & H & _) & _) & _). exact H. Qed.

Lemma unknown_perm m u : Permutation m u -> Permutation (unknown_pairs m) (unknown_pairs u).
Proof. apply Permutation_map. Qed.


(** What comes before the fields of the feature. *)
Definition ghead (g : global) : list pair :=
  [Pair (Key xfb []) (ser_version (g_version g))]
  ++ [Pair (Key x02 []) (ser_txversion (g_tx_version g))]
  ++ opt_pairs x03 ser_locktime (g_fallback_lock_time g)
  ++ [Pair (Key x04 []) (ser_varint (g_input_count g))]
  ++ [Pair (Key x05 []) (ser_varint (g_output_count g))]
  ++ [Pair (Key x06 []) [n2b (g_tx_modifiable_flags g)]]
  ++ map_pairs x01 ser_xpub ser_keysource (g_xpubs g).
Definition ihead (i : input) : list pair :=
  [Pair (Key x0e []) (ser_hash (in_previous_txid i))]
  ++ [Pair (Key x0f []) (ser_u32 (in_spent_output_index i))]
  ++ opt_pairs x10 ser_u32 (in_sequence i)
  ++ opt_pairs x11 ser_time (in_min_time i)
  ++ opt_pairs x12 ser_height (in_min_height i)
  ++ opt_pairs x00 ser_tx (in_non_witness_utxo i)
  ++ opt_pairs x01 ser_txout (in_witness_utxo i)
  ++ map_pairs x02 ser_pubkey ser_esig (in_partial_sigs i)
  ++ opt_pairs x03 ser_u32 (in_sighash_type i)
  ++ opt_pairs x04 ser_script (in_redeem_script i)
  ++ opt_pairs x05 ser_script (in_witness_script i)
  ++ map_pairs x06 ser_secp ser_keysource (in_bip32_derivations i)
  ++ opt_pairs x07 ser_script (in_final_script_sig i)
  ++ opt_pairs x08 ser_witness (in_final_script_witness i)
  ++ map_pairs x0a ser_hash ser_vec (in_ripemd160_preimages i)
  ++ map_pairs x0b ser_hash ser_vec (in_sha256_preimages i)
  ++ map_pairs x0c ser_hash ser_vec (in_hash160_preimages i)
  ++ map_pairs x0d ser_hash ser_vec (in_hash256_preimages i)
  ++ opt_pairs x13 ser_tsig (in_tap_key_sig i)
  ++ map_pairs x14 ser_xleaf ser_tsig (in_tap_script_sigs i)
  ++ map_pairs x15 ser_controlblock ser_leafscript (in_tap_scripts i)
  ++ map_pairs x16 ser_xonly ser_taporigin (in_tap_key_origins i)
  ++ opt_pairs x17 ser_xonly (in_tap_internal_key i)
  ++ opt_pairs x18 ser_hash (in_tap_merkle_root i).
Definition ohead (o : output) : list pair :=
  [Pair (Key x03 []) (ser_amount (out_amount o))]
  ++ [Pair (Key x04 []) (ser_script (out_script_pubkey o))]
  ++ opt_pairs x00 ser_script (out_redeem_script o)
  ++ opt_pairs x01 ser_script (out_witness_script o)
  ++ map_pairs x02 ser_secp ser_keysource (out_bip32_derivations o)
  ++ opt_pairs x05 ser_xonly (out_tap_internal_key o)
  ++ opt_pairs x06 ser_taptree (out_tap_tree o)
  ++ map_pairs x07 ser_xonly ser_taporigin (out_tap_key_origins o).

Lemma global_pairs_with g : global_pairs (C := C) g
  = ghead g ++ unknown_pairs (raw_entries x07 (g_sp_ecdh_shares g) ++ raw_entries x08 (g_sp_dleq_proofs g))
    ++ prop_pairs (g_proprietaries g) ++ unknown_pairs (g_unknowns g).
Proof. unfold global_pairs, ghead. rewrite Hsp, unknown_app, !unknown_raw, <- !app_assoc. reflexivity. Qed.
Lemma global_pairs_without h : global_pairs (C := C') h = ghead h ++ prop_pairs (g_proprietaries h) ++ unknown_pairs (g_unknowns h).
Proof. unfold global_pairs, ghead. rewrite Hno, <- !app_assoc. reflexivity. Qed.
Lemma input_pairs_with i : input_pairs (C := C) i
  = ihead i ++ unknown_pairs (raw_entries x1d (in_sp_ecdh_shares i) ++ raw_entries x1e (in_sp_dleq_proofs i))
    ++ prop_pairs (in_proprietaries i) ++ unknown_pairs (in_unknowns i).
Proof. unfold input_pairs, ihead. rewrite Hsp, unknown_app, !unknown_raw, <- !app_assoc. reflexivity. Qed.
Lemma input_pairs_without h : input_pairs (C := C') h = ihead h ++ prop_pairs (in_proprietaries h) ++ unknown_pairs (in_unknowns h).
Proof. unfold input_pairs, ihead. rewrite Hno, <- !app_assoc. reflexivity. Qed.
Lemma output_pairs_with o : output_pairs (C := C) o
  = ohead o ++ unknown_pairs (raw_entry x09 (out_sp_v0_info o) ++ raw_entry x0a (option_map le32 (out_sp_v0_label o)))
    ++ prop_pairs (out_proprietaries o) ++ unknown_pairs (out_unknowns o).
Proof.
  unfold output_pairs, ohead. rewrite Hsp, unknown_app, !unknown_raw1, <- !app_assoc.
  assert (E : opt_pairs x0a (le_enc 4) (out_sp_v0_label o) = opt_pairs x0a (fun v => v) (option_map le32 (out_sp_v0_label o))).
  { destruct (out_sp_v0_label o); cbn [option_map opt_pairs]; [now rewrite le32_enc|reflexivity]. }
  rewrite E. reflexivity.
Qed.
Lemma output_pairs_without h : output_pairs (C := C') h = ohead h ++ prop_pairs (out_proprietaries h) ++ unknown_pairs (out_unknowns h).
Proof. unfold output_pairs, ohead. rewrite Hno, <- !app_assoc. reflexivity. Qed.

Lemma plain_global_pairs g h : wf_global (C := C) g -> plain_global g h ->
  reordered [[x04; x05]] (global_pairs (C := C) g) (global_pairs (C := C') h)
  /\ reordered [[x04; x05]] (global_pairs (C := C') h) (global_pairs (C := C) g).
Proof.
  intros W Hp. pose proof (plain_global_eq _ _ Hp) as E. destruct Hp as (_ & _ & P).
  pose proof (wg_unknowns _ W) as [_ U0]. pose proof (Fknown _ (fun k => k_type k <> x00) wf_value _ U0) as U.
  rewrite global_pairs_with, global_pairs_without.
  replace (ghead h) with (ghead g) by now rewrite E. replace (g_proprietaries h) with (g_proprietaries g) by now rewrite E.
  apply reordered_tail; [rewrite <- unknown_app; now apply unknown_perm|].
  intros ts [<-|[]]. split; [now apply sel_props|]. split.
  - rewrite unknown_app, !unknown_raw, filter_app, !sel_map; reflexivity.
  - apply sel_unknowns with (known := global_type (C := C)); auto.
Qed.

Lemma plain_input_pairs i j : wf_input (C := C) i -> plain_input i j ->
  reordered [[x0e]; [x0f]] (input_pairs (C := C) i) (input_pairs (C := C') j)
  /\ reordered [[x0e]; [x0f]] (input_pairs (C := C') j) (input_pairs (C := C) i).
Proof.
  intros W Hp. pose proof (plain_input_eq _ _ Hp) as E. destruct Hp as (_ & _ & P).
  pose proof (wi_unknowns _ W) as [_ U].
  assert (U' : Forall (fun kv : key * bytes => input_type (C := C) (k_type (fst kv)) = false) (in_unknowns i)).
  { eapply Forall_impl; [|exact U]. intros a ((_ & H & _) & _). exact H. }
  rewrite input_pairs_with, input_pairs_without.
  replace (ihead j) with (ihead i) by now rewrite E. replace (in_proprietaries j) with (in_proprietaries i) by now rewrite E.
  apply reordered_tail; [rewrite <- unknown_app; now apply unknown_perm|].
  intros ts [<-|[<-|[]]]; (split; [now apply sel_props|]; split;
    [rewrite unknown_app, !unknown_raw, filter_app, !sel_map; reflexivity
    |apply sel_unknowns with (known := input_type (C := C)); auto]).
Qed.

Lemma plain_output_pairs o u : wf_output (C := C) o -> plain_output o u ->
  reordered [[x03]; [x04]] (output_pairs (C := C) o) (output_pairs (C := C') u)
  /\ reordered [[x03]; [x04]] (output_pairs (C := C') u) (output_pairs (C := C) o).
Proof.
  intros W Hp. pose proof (plain_output_eq _ _ Hp) as E. destruct Hp as (_ & _ & P).
  pose proof (wo_unknowns _ W) as [_ U].
  assert (U' : Forall (fun kv : key * bytes => output_type_key (C := C) (k_type (fst kv)) = false) (out_unknowns o)).
  { eapply Forall_impl; [|exact U]. intros a ((_ & H & _) & _). exact H. }
  rewrite output_pairs_with, output_pairs_without.
  replace (ohead u) with (ohead o) by now rewrite E. replace (out_proprietaries u) with (out_proprietaries o) by now rewrite E.
  apply reordered_tail; [rewrite <- unknown_app; now apply unknown_perm|].
  intros ts [<-|[<-|[]]]; (split; [now apply sel_props|]; split;
    [rewrite unknown_app, !unknown_raw1, filter_app, !sel_opt; reflexivity
    |apply sel_unknowns with (known := output_type_key (C := C)); auto]).
Qed.

Lemma F2_maps {A B} (R : A -> B -> Prop) (Q : A -> Prop) (S : list pair -> list pair -> Prop) (f : A -> list pair) (g : B -> list pair) l l' :
  (forall a b, Q a -> R a b -> S (f a) (g b)) -> Forall Q l -> Forall2 R l l' -> Forall2 S (map f l) (map g l').
Proof. intros H F. induction 1; cbn; constructor; inversion F; subst; auto. Qed.
Lemma F2_flip {A B} (R : A -> B -> Prop) l l' : Forall2 R l l' -> Forall2 (fun b a => R a b) l' l.
Proof. induction 1; constructor; auto. Qed.

Lemma maps_length bs (p q : psbt) lg lis los : length (p_inputs p) = length (p_inputs q) -> length (p_outputs p) = length (p_outputs q) ->
  maps_of bs p lg lis los -> maps_of bs q lg lis los.
Proof. intros H1 H2 (w & t & E & Hw & N1 & N2). exists w, t. repeat split; auto; congruence. Qed.

Section Through.
Variables p q : psbt.
Hypothesis W : wf_psbt (C := C) p.
Hypothesis Hq : plain p q.
Hypothesis F : room p.
Hypothesis Hs : Forall (fun o => out_script_pubkey o <> []) (p_outputs p).
Hypothesis T : no_tap_ties p.

Lemma plain_lengths : length (p_inputs p) = length (p_inputs q) /\ length (p_outputs p) = length (p_outputs q).
Proof. destruct Hq as (_ & H1%F2_blen & H2%F2_blen). unfold blen in *. lia. Qed.

Lemma plain_reads : psbt_deserialize (C := C') (psbt_serialize (C := C) p) = Ok q.
Proof.
  destruct plain_lengths as [N1 N2]. pose proof (plain_wf _ _ W Hq F Hs) as W'.
  pose proof (plain_ties _ _ Hq T) as T'. destruct Hq as (Hg & Hi & Ho).
  eapply (deserialize_reorder (C := C')); [apply (psbt_roundtrip_exact (C := C') q W' T')|now apply serialize_maps
    |apply (maps_length _ p q); [exact N1|exact N2|now apply serialize_maps]| | |].
  - now apply plain_global_pairs; [apply (wp_global _ W)|].
  - apply F2_flip. eapply F2_maps; [|apply (wp_inputs _ W)|exact Hi]. intros a b H1 H2. now apply plain_input_pairs.
  - apply F2_flip. eapply F2_maps; [|apply (wp_outputs _ W)|exact Ho]. intros a b H1 H2. now apply plain_output_pairs.
Qed.

Lemma plain_back : psbt_deserialize (C := C) (psbt_serialize (C := C') q) = Ok p.
Proof.
  destruct plain_lengths as [N1 N2]. pose proof (plain_wf _ _ W Hq F Hs) as W'.
  destruct Hq as (Hg & Hi & Ho).
  eapply (deserialize_reorder (C := C)); [apply (psbt_roundtrip_exact (C := C) p W T)|now apply serialize_maps
    |apply (maps_length _ q p); [now symmetry|now symmetry|now apply serialize_maps]| | |].
  - now apply plain_global_pairs; [apply (wp_global _ W)|].
  - eapply F2_maps; [|apply (wp_inputs _ W)|exact Hi]. intros a b H1 H2. now apply plain_input_pairs.
  - eapply F2_maps; [|apply (wp_outputs _ W)|exact Ho]. intros a b H1 H2. now apply plain_output_pairs.
Qed.
End Through.
End TwoBuilds.

(** ** What the build without the feature accepts *)
Section Accept.
Context `{X : Ext} {L : ExtLaws X} (C C' : Cfg).
Hypothesis Hsp : @feat_sp C = true.
Hypothesis Hno : @feat_sp C' = false.

Lemma last_count_one l t n n' : SpecAccept.last_count l t n -> SpecAccept.last_count l t n' -> n = n'.
Proof.
  intros (ps & p & c & x & E & Hc & Ev) (ps' & p' & c' & x' & E' & Hc' & Ev').
  rewrite E in E'. apply app_inj_tail in E' as [_ <-]. rewrite Ev in Ev'.
  apply compact_size_enc in Hc as [-> H1]. apply compact_size_enc in Hc' as [-> H2].
  pose proof (dec_varint_rt n x H1) as D. rewrite Ev', dec_varint_rt in D by exact H2. congruence.
Qed.

Lemma own_counts g : wf_global (C := C) g ->
  last_count (global_pairs (C := C) g) x04 (g_input_count g) /\ last_count (global_pairs (C := C) g) x05 (g_output_count g).
Proof.
  intros W. pose proof (wg_unknowns _ W) as [_ U0]. pose proof (Fknown _ (fun k => k_type k <> x00) wf_value _ U0) as U.
  assert (A : forall t n, (t = x04 \/ t = x05) -> wf_u64 n ->
    filter (sel [t]) (ghead g) = [Pair (Key t []) (ser_varint n)] -> last_count (global_pairs (C := C) g) t n).
  { intros t n Ht Hn E. exists [], (Pair (Key t []) (ser_varint n)), (enc_varint n), []. split; [|split].
    - rewrite (filter_ext _ (sel [t])) by (intros q; unfold sel; cbn; now rewrite Bool.orb_false_r).
      rewrite (global_pairs_with C Hsp), !filter_app, E, unknown_app, !unknown_raw, filter_app, !sel_map by (destruct Ht; subst; reflexivity).
      rewrite sel_props by (destruct Ht; subst; reflexivity). rewrite (sel_unknowns _ _ _ U) by (destruct Ht; subst; reflexivity).
      reflexivity.
    - now apply enc_varint_spec.
    - now rewrite app_nil_r. }
  split; apply A; auto; try apply (wg_input_count _ W); try apply (wg_output_count _ W);
    unfold ghead; rewrite !filter_app, sel_opt, sel_map by reflexivity; reflexivity.
Qed.

Lemma accepted_scripts p q : wf_psbt (C := C) p -> psbt_deserialize (C := C') (psbt_serialize (C := C) p) = Ok q ->
  Forall (fun o => out_script_pubkey o <> []) (p_outputs p) /\ room C' p.
Proof.
  intros W D. pose proof (proj1 (accept_v2 (C := C') _) (ex_intro _ q D)) as A. rewrite Hno in A.
  destruct A as (lg & lis & los & w & junk & E & Hw & S1 & S2 & S3 & _ & _ & Fo & N1 & N2 & C1 & C2).
  pose proof (serialize_wire (C := C) p W) as Es. destruct (serialize_pairs_wf (C := C) p W) as (P1 & P2 & P3).
  apply psbt_wire_ser in Hw as (-> & M1 & M2 & M3). rewrite Es in E. rewrite <- !app_assoc in E. apply app_inv_head in E.
  symmetry in E. rewrite <- (app_nil_r (concat (map ser_pairs (map output_pairs (p_outputs p))))) in E.
  apply ser_pairs_unique in E as [-> E]; auto.
  destruct (own_counts _ (wp_global _ W)) as [K1 K2].
  pose proof (last_count_one _ _ _ _ N1 K1) as Q1. pose proof (last_count_one _ _ _ _ N2 K2) as Q2.
  rewrite (wp_input_count _ W) in Q1. rewrite (wp_output_count _ W) in Q2.
  apply sers_unique in E as [-> E]; auto; [|rewrite map_length; unfold blen in Q1; lia].
  apply sers_unique in E as [-> _]; auto; [|rewrite map_length; unfold blen in Q2; lia].
  rewrite Q1 in C1. rewrite Q2 in C2. split; [|split; unfold ISIZE_MAX; lia].
  apply Forall_forall. intros o Ho. rewrite Forall_map, Forall_forall in Fo. destruct (Fo o Ho) as (_ & _ & F4 & _).
  destruct (F4 eq_refl) as (r & Hr & Ht & Hv). intros Hz. apply Hv.
  pose proof (Forall_forall (wf_output (C := C)) (p_outputs p)) as [Z _]. specialize (Z (wp_outputs _ W) o Ho).
  pose proof (wo_unknowns _ Z) as [_ U].
  assert (U' : Forall (fun kv : key * bytes => output_type_key (C := C) (k_type (fst kv)) = false) (out_unknowns o)).
  { eapply Forall_impl; [|exact U]. intros a ((_ & H & _) & _). exact H. }
  assert (F : filter (sel [x04]) (output_pairs (C := C) o) = [Pair (Key x04 []) (ser_script (out_script_pubkey o))]).
  { rewrite (output_pairs_with C Hsp), !filter_app, unknown_app, !unknown_raw1, filter_app, !sel_opt by reflexivity.
    rewrite sel_props by reflexivity. rewrite (sel_unknowns _ _ _ U') by reflexivity.
    unfold ohead. rewrite !filter_app, !sel_opt, !sel_map by reflexivity. reflexivity. }
  assert (G : In r (filter (sel [x04]) (output_pairs (C := C) o))).
  { apply filter_In. split; [exact Hr|]. unfold sel. rewrite Ht. reflexivity. }
  rewrite F in G. destruct G as [<-|[]]. exact Hz.
Qed.
End Accept.

(** ** Combining in both builds *)

Lemma perm_in {A} (l l' : list A) (x : A) : Permutation l l' -> (In x l <-> In x l').
Proof. intros P. split; apply Permutation_in; [exact P|now symmetry]. Qed.

Definition is_comb {K V} (a b c : list (K * V)) : Prop :=
  forall k v, In (k, v) c <-> In (k, v) b \/ In (k, v) a /\ ~ In k (map fst b).

Lemma comb_map_is {K V} (sk : K -> list N) (sk_inj : forall a b, sk a = sk b -> a = b) (a b : list (K * V)) :
  m_sorted sk a -> m_sorted sk b -> is_comb a b (comb_map sk a b).
Proof.
  intros Ha Hb k v. assert (Hc : m_sorted sk (comb_map sk a b)) by now apply m_extend_is_sorted.
  rewrite <- !(m_get_some_iff sk sk_inj) by assumption. unfold comb_map. rewrite (m_get_extend sk sk_inj) by assumption.
  destruct (m_get sk k b) as [y|] eqn:E.
  - split; [auto|]. intros [H|[_ H]]; auto. exfalso. apply H. apply (m_get_in sk sk_inj) in E. now apply (in_map fst) in E.
  - apply (m_get_none_notin sk) in E. intuition discriminate.
Qed.

Lemma raw_in t m k v : In (k, v) (raw_entries t m) <-> exists d, k = Key t d /\ In (d, v) m.
Proof.
  unfold raw_entries. rewrite in_map_iff. split.
  - intros ([d w] & E & H). cbn in E. injection E as <- <-. eauto.
  - intros (d & -> & H). now exists (d, v).
Qed.
Lemma raw_key t m k : In k (map fst (raw_entries t m)) <-> exists d, k = Key t d /\ In d (map fst m).
Proof.
  unfold raw_entries. rewrite map_map, in_map_iff. split.
  - intros ([d w] & <- & H). exists d. split; auto. now apply (in_map fst) in H.
  - intros (d & -> & ([d' v] & E & H)%in_map_iff). cbn in E. subst. now exists (d, v).
Qed.
Lemma raw_comb t a b c : is_comb a b c -> is_comb (raw_entries t a) (raw_entries t b) (raw_entries t c).
Proof.
  intros H k v. rewrite !raw_in, raw_key. split.
  - intros (d & -> & Hd). apply H in Hd as [Hd|[H1 H2]]; [left; eauto|right]. split; [eauto|].
    intros (d' & E & Hd'). injection E as <-. auto.
  - intros [(d & -> & Hd)|[(d & -> & Hd) H2]]; exists d; split; auto; apply H; auto.
    right. split; auto. intros Hk. apply H2. eauto.
Qed.
Lemma raw1_comb t (a b : option bytes) : (forall x y, a = Some x -> b = Some y -> x = y) ->
  is_comb (raw_entry t a) (raw_entry t b) (raw_entry t (comb_opt a b)).
Proof.
  intros H k v. destruct a as [x|], b as [y|]; cbn; try (specialize (H _ _ eq_refl eq_refl); subst y);
    intuition (try congruence).
Qed.

Lemma comb_parts (u v w xa xb xc ya yb yc u' v' : list (key * bytes)) tx ty (known : byte -> bool) :
  m_sorted sk_key u' -> m_sorted sk_key v' -> Permutation u' (u ++ xa ++ ya) -> Permutation v' (v ++ xb ++ yb) ->
  is_comb u v w -> is_comb xa xb xc -> is_comb ya yb yc -> NoDup (map fst (w ++ xc ++ yc)) ->
  known tx = true -> known ty = true -> tx <> ty ->
  (forall k, In k (map fst u) -> known (k_type k) = false) -> (forall k, In k (map fst v) -> known (k_type k) = false) ->
  (forall k, In k (map fst xa) -> k_type k = tx) -> (forall k, In k (map fst xb) -> k_type k = tx) ->
  (forall k, In k (map fst ya) -> k_type k = ty) -> (forall k, In k (map fst yb) -> k_type k = ty) ->
  m_sorted sk_key (comb_map sk_key u' v') /\ Permutation (comb_map sk_key u' v') (w ++ xc ++ yc).
Proof.
  intros Su Sv Pu Pv Cw Cx Cy N Kx Ky Nxy Tu Tv Ta Tb Tc Td.
  assert (Sc : m_sorted sk_key (comb_map sk_key u' v')) by (apply m_extend_is_sorted; [exact sk_key_inj|exact Su]).
  split; [exact Sc|]. apply NoDup_Permutation.
  - apply (NoDup_map_inv fst). now apply (sorted_nodup sk_key).
  - now apply (NoDup_map_inv fst).
  - intros [k x]. rewrite (comb_map_is sk_key sk_key_inj u' v' Su Sv k x), !in_app_iff, (Cw k x), (Cx k x), (Cy k x).
    rewrite (perm_in _ _ (k, x) Pu), (perm_in _ _ (k, x) Pv), (perm_in _ _ k (Permutation_map fst Pv)).
    rewrite !map_app, !in_app_iff.
    assert (M : forall l, In (k, x) l -> In k (map fst l)) by (intros l H; exact (in_map fst _ _ H)).
    pose proof (Tu k) as Tu'. pose proof (Tv k) as Tv'. pose proof (Ta k) as Ta'. pose proof (Tb k) as Tb'. pose proof (Tc k) as Tc'. pose proof (Td k) as Td'.
    pose proof (M u) as Mu. pose proof (M v) as Mv. pose proof (M xa) as Ma. pose proof (M xb) as Mb. pose proof (M ya) as Mc. pose proof (M yb) as Md.
    clear - Tu' Tv' Ta' Tb' Tc' Td' Mu Mv Ma Mb Mc Md Kx Ky Nxy.
    assert (D1 : k_type k = tx -> known (k_type k) = false -> False) by congruence.
    assert (D2 : k_type k = ty -> known (k_type k) = false -> False) by congruence.
    assert (D3 : k_type k = tx -> k_type k = ty -> False) by congruence.
    tauto.
Qed.


Lemma comb_fresh {V} (a b : list (key * V)) (known : byte -> bool) :
  (forall k, In k (map fst a) -> known (k_type k) = false) -> (forall k, In k (map fst b) -> known (k_type k) = false) ->
  m_sorted sk_key a -> m_sorted sk_key b ->
  forall k, In k (map fst (comb_map sk_key a b)) -> known (k_type k) = false.
Proof.
  intros Ha Hb Sa Sb k ([k' v] & <- & H)%in_map_iff. apply (comb_map_is sk_key sk_key_inj a b Sa Sb) in H as [H|[H _]];
    apply (in_map fst) in H; auto.
Qed.
Lemma comb_nodup {K V} (sk : K -> list N) (sk_inj : forall a b, sk a = sk b -> a = b) (a b : list (K * V)) :
  m_sorted sk a -> NoDup (map fst (comb_map sk a b)).
Proof. intros H. apply (sorted_nodup sk). now apply m_extend_is_sorted. Qed.

Lemma comb_raw_maps (u v ma mb : list (key * bytes)) (xa xb ya yb : list (bytes * bytes)) tx ty (known : byte -> bool) :
  m_sorted sk_key u -> m_sorted sk_key v -> m_sorted bkey xa -> m_sorted bkey xb -> m_sorted bkey ya -> m_sorted bkey yb ->
  m_sorted sk_key ma -> m_sorted sk_key mb ->
  Permutation ma (u ++ raw_entries tx xa ++ raw_entries ty ya) -> Permutation mb (v ++ raw_entries tx xb ++ raw_entries ty yb) ->
  known tx = true -> known ty = true -> tx <> ty ->
  (forall k, In k (map fst u) -> known (k_type k) = false) -> (forall k, In k (map fst v) -> known (k_type k) = false) ->
  m_sorted sk_key (comb_map sk_key ma mb)
  /\ Permutation (comb_map sk_key ma mb) (comb_map sk_key u v ++ raw_entries tx (comb_map bkey xa xb) ++ raw_entries ty (comb_map bkey ya yb)).
Proof.
  intros. eapply (comb_parts u v _ _ _ _ _ _ _ ma mb tx ty known); eauto using comb_map_is, sk_key_inj, raw_entries_types.
  - apply raw_comb. now apply comb_map_is; [exact bkey_inj| |].
  - apply raw_comb. now apply comb_map_is; [exact bkey_inj| |].
  - apply (entries_nodup _ _ _ tx ty known); eauto using raw_entries_types, comb_fresh.
    + apply comb_nodup; [exact sk_key_inj|assumption].
    + apply raw_entries_nodup, comb_nodup; [exact bkey_inj|assumption].
    + apply raw_entries_nodup, comb_nodup; [exact bkey_inj|assumption].
Qed.

Lemma comb_raw_opts (u v ma mb : list (key * bytes)) (xa xb ya yb : option bytes) tx ty (known : byte -> bool) :
  m_sorted sk_key u -> m_sorted sk_key v ->
  (forall x y, xa = Some x -> xb = Some y -> x = y) -> (forall x y, ya = Some x -> yb = Some y -> x = y) ->
  m_sorted sk_key ma -> m_sorted sk_key mb ->
  Permutation ma (u ++ raw_entry tx xa ++ raw_entry ty ya) -> Permutation mb (v ++ raw_entry tx xb ++ raw_entry ty yb) ->
  known tx = true -> known ty = true -> tx <> ty ->
  (forall k, In k (map fst u) -> known (k_type k) = false) -> (forall k, In k (map fst v) -> known (k_type k) = false) ->
  m_sorted sk_key (comb_map sk_key ma mb)
  /\ Permutation (comb_map sk_key ma mb) (comb_map sk_key u v ++ raw_entry tx (comb_opt xa xb) ++ raw_entry ty (comb_opt ya yb)).
Proof.
  intros. eapply (comb_parts u v _ _ _ _ _ _ _ ma mb tx ty known); eauto using comb_map_is, sk_key_inj, raw_entry_types, raw1_comb.
  apply (entries_nodup _ _ _ tx ty known); eauto using raw_entry_types, comb_fresh, raw_entry_nodup.
  apply comb_nodup; [exact sk_key_inj|assumption].
Qed.

Section CombineBuilds.
Context `{X : Ext} {L : ExtLaws X} (C : Cfg).
Hypothesis Hsp : @feat_sp C = true.

Lemma plain_global_combine a b a' b' : wf_global (C := C) a -> wf_global (C := C) b -> plain_global a a' -> plain_global b b' ->
  same_outcome plain_global (global_combine a b) (global_combine a' b').
Proof.
  intros Wa Wb Pa Pb. pose proof (plain_global_eq _ _ Pa) as Ea. pose proof (plain_global_eq _ _ Pb) as Eb.
  destruct Pa as (_ & Sa & Pa). destruct Pb as (_ & Sb & Pb).
  set (ma := g_unknowns a') in *. set (mb := g_unknowns b') in *. clearbody ma mb. subst a' b'.
  destruct Wa as [_ _ _ _ _ _ _ A8 A9 _ _ [AS AU]]. destruct Wb as [_ _ _ _ _ _ _ B8 B9 _ _ [BS BU]].
  unfold sp_field in *. rewrite Hsp in *.
  pose proof (unknown_entries_fresh _ _ (fun k => k_type k <> x00) wf_value AU) as FA.
  pose proof (unknown_entries_fresh _ _ (fun k => k_type k <> x00) wf_value BU) as FB.
  unfold global_combine. cbn.
  destruct (negb (g_version a =? g_version b)); [reflexivity|].
  destruct (negb (g_tx_version a =? g_tx_version b)); [reflexivity|]. cbn.
  destruct (global_merge_xpubs (g_xpubs b) (g_xpubs a)) as [xs|e|]; cbn; auto.
  split; [reflexivity|].
  apply (comb_raw_maps (g_unknowns a) (g_unknowns b) ma mb (g_sp_ecdh_shares a) (g_sp_ecdh_shares b)
    (g_sp_dleq_proofs a) (g_sp_dleq_proofs b) x07 x08 (global_type (C := C))); auto;
    try apply A8; try apply A9; try apply B8; try apply B9; try discriminate; unfold global_type; now rewrite Hsp.
Qed.

Lemma plain_input_combine a b a' b' : wf_input (C := C) a -> wf_input (C := C) b -> plain_input a a' -> plain_input b b' ->
  same_outcome plain_input (input_combine a b) (input_combine a' b').
Proof.
  intros Wa Wb Pa Pb. pose proof (plain_input_eq _ _ Pa) as Ea. pose proof (plain_input_eq _ _ Pb) as Eb.
  destruct Pa as (_ & Sa & Pa). destruct Pb as (_ & Sb & Pb).
  set (ma := in_unknowns a') in *. set (mb := in_unknowns b') in *. clearbody ma mb. subst a' b'.
  pose proof (wi_shares _ Wa) as A8. pose proof (wi_proofs _ Wa) as A9. pose proof (wi_unknowns _ Wa) as [AS AU].
  pose proof (wi_shares _ Wb) as B8. pose proof (wi_proofs _ Wb) as B9. pose proof (wi_unknowns _ Wb) as [BS BU].
  unfold sp_field in *. rewrite Hsp in *.
  assert (FA : forall k, In k (map fst (in_unknowns a)) -> input_type (C := C) (k_type k) = false).
  { apply (unknown_entries_fresh _ _ (fun _ => True) wf_value). eapply Forall_impl; [|exact AU]. cbn beta. tauto. }
  assert (FB : forall k, In k (map fst (in_unknowns b)) -> input_type (C := C) (k_type k) = false).
  { apply (unknown_entries_fresh _ _ (fun _ => True) wf_value). eapply Forall_impl; [|exact BU]. cbn beta. tauto. }
  unfold input_combine. cbn.
  destruct (negb (bytes_eqb (in_previous_txid a) (in_previous_txid b))); [reflexivity|].
  destruct (negb (in_spent_output_index a =? in_spent_output_index b)); [reflexivity|]. cbn.
  split; [reflexivity|].
  apply (comb_raw_maps (in_unknowns a) (in_unknowns b) ma mb (in_sp_ecdh_shares a) (in_sp_ecdh_shares b)
    (in_sp_dleq_proofs a) (in_sp_dleq_proofs b) x1d x1e (input_type (C := C))); auto;
    try apply A8; try apply A9; try apply B8; try apply B9; try discriminate; unfold input_type; now rewrite Hsp.
Qed.

Lemma plain_output_combine a b a' b' : wf_output (C := C) a -> wf_output (C := C) b -> agrees a b -> plain_output a a' -> plain_output b b' ->
  same_outcome plain_output (output_combine a b) (output_combine a' b').
Proof.
  intros Wa Wb [G1 G2] Pa Pb. pose proof (plain_output_eq _ _ Pa) as Ea. pose proof (plain_output_eq _ _ Pb) as Eb.
  destruct Pa as (_ & Sa & Pa). destruct Pb as (_ & Sb & Pb).
  set (ma := out_unknowns a') in *. set (mb := out_unknowns b') in *. clearbody ma mb. subst a' b'.
  pose proof (wo_unknowns _ Wa) as [AS AU]. pose proof (wo_unknowns _ Wb) as [BS BU].
  assert (FA : forall k, In k (map fst (out_unknowns a)) -> output_type_key (C := C) (k_type k) = false).
  { apply (unknown_entries_fresh _ _ (fun _ => True) wf_value). eapply Forall_impl; [|exact AU]. cbn beta. tauto. }
  assert (FB : forall k, In k (map fst (out_unknowns b)) -> output_type_key (C := C) (k_type k) = false).
  { apply (unknown_entries_fresh _ _ (fun _ => True) wf_value). eapply Forall_impl; [|exact BU]. cbn beta. tauto. }
  unfold output_combine. cbn.
  destruct (negb (out_amount a =? out_amount b)); [reflexivity|].
  destruct (negb (bytes_eqb (out_script_pubkey a) (out_script_pubkey b))); [reflexivity|]. cbn.
  split; [reflexivity|]. cbn.
  replace (option_map le32 (comb_opt (out_sp_v0_label a) (out_sp_v0_label b)))
    with (comb_opt (option_map le32 (out_sp_v0_label a)) (option_map le32 (out_sp_v0_label b)))
    by (destruct (out_sp_v0_label a); reflexivity).
  apply (comb_raw_opts (out_unknowns a) (out_unknowns b) ma mb (out_sp_v0_info a) (out_sp_v0_info b)
    (option_map le32 (out_sp_v0_label a)) (option_map le32 (out_sp_v0_label b)) x09 x0a (output_type_key (C := C))); auto;
    try discriminate; try (unfold output_type_key; now rewrite Hsp).
  intros x y. destruct (out_sp_v0_label a) as [m|], (out_sp_v0_label b) as [n|]; cbn; try discriminate.
  rewrite (G2 m n eq_refl eq_refl). congruence.
Qed.

Lemma plain_zip {E A} (R : A -> A -> Prop) (wf : A -> Prop) (ok : A -> A -> Prop) (f : A -> A -> res E A) :
  (forall a b a' b', wf a -> wf b -> ok a b -> R a a' -> R b b' -> same_outcome R (f a b) (f a' b')) ->
  forall la lb la' lb', Forall wf la -> Forall wf lb ->
  (forall n a b, nth_error la n = Some a -> nth_error lb n = Some b -> ok a b) ->
  Forall2 R la la' -> Forall2 R lb lb' ->
  same_outcome (Forall2 R) (combine_zip f la lb) (combine_zip f la' lb').
Proof.
  intros H la. induction la as [|a la IH]; intros lb la' lb' Wa Wb O Ha Hb; inversion Ha as [|? a' ? ra Ra Ha']; subst.
  - destruct lb, lb'; cbn; constructor.
  - inversion Hb as [|b b' rb rb' Rb Hb']; subst; cbn; [constructor; auto|].
    inversion Wa; inversion Wb; subst.
    pose proof (H a b a' b') as Z. destruct (f a b), (f a' b'); cbn in *; try (exfalso; apply Z; auto; now apply (O 0%nat)).
    + specialize (IH rb ra rb'). destruct (combine_zip f la rb), (combine_zip f ra rb'); cbn in *;
        try (exfalso; apply IH; auto; intros n x y; apply (O (Datatypes.S n))).
      * constructor; [apply Z; auto; now apply (O 0%nat)|]. apply IH; auto. intros n x y; apply (O (Datatypes.S n)).
      * apply IH; auto. intros n x y; apply (O (Datatypes.S n)).
      * exact Logic.I.
    + apply Z; auto. now apply (O 0%nat).
    + exact Logic.I.
Qed.

Lemma plain_combine a b a' b' : wf_psbt (C := C) a -> wf_psbt (C := C) b -> all_agree a b -> plain a a' -> plain b b' ->
  same_outcome plain (psbt_combine a b) (psbt_combine a' b').
Proof.
  intros Wa Wb O (Ga & Ia & Oa) (Gb & Ib & Ob). unfold psbt_combine.
  pose proof (plain_global_combine _ _ _ _ (wp_global _ Wa) (wp_global _ Wb) Ga Gb) as H1.
  destruct (global_combine (p_global a) (p_global b)), (global_combine (p_global a') (p_global b')); cbn in *; try contradiction; try congruence.
  pose proof (plain_zip plain_input (wf_input (C := C)) (fun _ _ => True) input_combine (fun a b a' b' w1 w2 _ => plain_input_combine a b a' b' w1 w2)
    _ _ _ _ (wp_inputs _ Wa) (wp_inputs _ Wb) (fun _ _ _ _ _ => Logic.I) Ia Ib) as H2.
  destruct (combine_zip input_combine (p_inputs a) (p_inputs b)), (combine_zip input_combine (p_inputs a') (p_inputs b')); cbn in *; try contradiction; try congruence.
  pose proof (plain_zip plain_output (wf_output (C := C)) agrees output_combine plain_output_combine
    _ _ _ _ (wp_outputs _ Wa) (wp_outputs _ Wb) O Oa Ob) as H3.
  destruct (combine_zip output_combine (p_outputs a) (p_outputs b)), (combine_zip output_combine (p_outputs a') (p_outputs b')); cbn in *; try contradiction; try congruence.
  exact (conj H1 (conj H2 H3)).
Qed.
End CombineBuilds.

(** ** The transaction *)

Lemma F2_map {A B D} (R : A -> B -> Prop) (f : A -> D) (g : B -> D) l l' :
  (forall a b, R a b -> f a = g b) -> Forall2 R l l' -> map f l = map g l'.
Proof. intros H. induction 1; cbn; [reflexivity|]. f_equal; auto. Qed.
Lemma F2_existsb {A B} (R : A -> B -> Prop) f g (l : list A) (l' : list B) :
  (forall a b, R a b -> f a = g b) -> Forall2 R l l' -> existsb f l = existsb g l'.
Proof. intros H. induction 1; cbn; [reflexivity|]. f_equal; auto. Qed.
Lemma F2_forallb {A B} (R : A -> B -> Prop) f g (l : list A) (l' : list B) :
  (forall a b, R a b -> f a = g b) -> Forall2 R l l' -> forallb f l = forallb g l'.
Proof. intros H. induction 1; cbn; [reflexivity|]. f_equal; auto. Qed.

Lemma plain_lock p q : plain p q -> determine_lock_time p = determine_lock_time q.
Proof.
  intros (Hg & Hi & Ho). unfold determine_lock_time.
  rewrite (F2_existsb plain_input input_requires_time input_requires_time _ _ ltac:(intros a b ->%plain_input_eq; reflexivity) Hi).
  rewrite (F2_existsb plain_input input_requires_height input_requires_height _ _ ltac:(intros a b ->%plain_input_eq; reflexivity) Hi).
  rewrite (F2_existsb plain_input input_has_lock_time input_has_lock_time _ _ ltac:(intros a b ->%plain_input_eq; reflexivity) Hi).
  rewrite (F2_forallb plain_input input_satisfied_height input_satisfied_height _ _ ltac:(intros a b ->%plain_input_eq; reflexivity) Hi).
  rewrite (F2_map plain_input in_min_height in_min_height _ _ ltac:(intros a b ->%plain_input_eq; reflexivity) Hi).
  rewrite (F2_map plain_input in_min_time in_min_time _ _ ltac:(intros a b ->%plain_input_eq; reflexivity) Hi).
  rewrite (plain_global_eq _ _ Hg). reflexivity.
Qed.
Lemma plain_tx p q : plain p q -> unsigned_tx p = unsigned_tx q.
Proof.
  intros H. unfold unsigned_tx. rewrite (plain_lock _ _ H). destruct H as (Hg & Hi & Ho).
  rewrite (F2_map plain_input input_unsigned_tx_in input_unsigned_tx_in _ _ ltac:(intros a b ->%plain_input_eq; reflexivity) Hi).
  rewrite (F2_map plain_output output_tx_out output_tx_out _ _ ltac:(intros a b ->%plain_output_eq; reflexivity) Ho).
  rewrite (plain_global_eq _ _ Hg). reflexivity.
Qed.
Lemma plain_fee p q : plain p q -> psbt_fee p = psbt_fee q.
Proof.
  intros (Hg & Hi & Ho). unfold psbt_fee, psbt_funding_utxos.
  rewrite (F2_map plain_input input_funding_utxo input_funding_utxo _ _ ltac:(intros a b ->%plain_input_eq; reflexivity) Hi).
  rewrite (F2_map plain_output (fun o => Ok (out_amount o)) (fun o => Ok (out_amount o)) _ _ ltac:(intros a b ->%plain_output_eq; reflexivity) Ho).
  reflexivity.
Qed.

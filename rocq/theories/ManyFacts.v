(** Facts about combining many PSBTs (src/v2/mod.rs:675-687, src/v0/bitcoin/mod.rs:224-287). *)
From Coq Require Import Permutation.
From Verif Require Import Base OMap Consensus ConsensusFacts Ext Raw RawFacts TapTree TapTreeFacts
  Serialize SerializeFacts MapCodec MapFacts V2Global V2Input V2Output V2Psbt V2Roles
  V0Error V0Input V0Output V0Psbt SpecPsbt SpecPsbt0 SpecCombine SpecCombine0 SpecRegroup V2CodecFacts V2CombineFacts V0PsbtFacts V0CombineFacts
  RegroupFacts.
Local Open Scope N_scope.

(** ** Partial operations that are commutative and associative on compatible arguments *)
Section Algebra.
Context {E A : Type} (f : A -> A -> res E A) (eqv : A -> A -> Prop) (W : A -> Prop) (Cm : A -> A -> Prop).
Hypothesis eqv_refl : forall a, eqv a a.
Hypothesis eqv_sym : forall a b, eqv a b -> eqv b a.
Hypothesis eqv_trans : forall a b c, eqv a b -> eqv b c -> eqv a c.
Hypothesis Cm_sym : forall a b, Cm a b -> Cm b a.
Hypothesis f_comm : forall a b, W a -> W b -> Cm a b -> exists c d, f a b = Ok c /\ f b a = Ok d /\ eqv c d.
Hypothesis f_W : forall a b c, W a -> W b -> f a b = Ok c -> W c.
Hypothesis f_Cm : forall a b c x, W a -> W b -> W x -> Cm a b -> Cm a x -> Cm b x -> f a b = Ok c -> Cm c x.
Hypothesis f_assoc : forall a b c d, W a -> W b -> W c -> Cm a b -> Cm a c -> Cm b c ->
  left_first f a b c = Ok d -> right_first f a b c = Ok d.
Hypothesis f_eqv : forall a b c a' b', f a b = Ok c -> eqv a a' -> eqv b b' -> exists c', f a' b' = Ok c' /\ eqv c c'.

Fixpoint many (p : A) (l : list A) : res E A :=
  match l with
  | [] => Ok p
  | q :: r => c <- f p q ;; many c r
  end.
Definition family (l : list A) : Prop := Forall W l /\ ForallOrdPairs Cm l.
Definition req (r s : res E A) : Prop := exists c d, r = Ok c /\ s = Ok d /\ eqv c d.

Lemma req_trans r s t : req r s -> req s t -> req r t.
Proof.
  intros (c & d & -> & -> & H1) (d' & e & Q & -> & H2). apply Ok_inj in Q. subst d'. exists c, e. eauto.
Qed.
Lemma req_sym r s : req r s -> req s r.
Proof. intros (c & d & -> & -> & H). exists d, c. auto. Qed.

Lemma family_perm l m : Permutation l m -> family l -> family m.
Proof.
  intros P [H1 H2]. split; [rewrite Forall_forall in *; intros x Hx; apply H1; eapply Permutation_in; [apply Permutation_sym|]; eauto|].
  clear H1. induction P as [|x l m P IH|x y l|l m n P1 IH1 P2 IH2].
  - constructor.
  - inversion_clear H2 as [|? ? F1 F2]. constructor; auto. rewrite Forall_forall in *. intros z Hz. apply F1.
    eapply Permutation_in; [apply Permutation_sym|]; eauto.
  - inversion_clear H2 as [|? ? F1 F2]. inversion_clear F2 as [|? ? F3 F4]. inversion_clear F1 as [|? ? Hyx F0].
    constructor; [constructor; auto|]. constructor; auto.
  - auto.
Qed.
Lemma family_head p q l : family (p :: q :: l) -> exists c, f p q = Ok c /\ family (c :: l).
Proof.
  intros [H1 H2]. inversion_clear H1 as [|? ? Wp H]. inversion_clear H as [|? ? Wq Wl].
  inversion_clear H2 as [|? ? F1 F2]. inversion_clear F2 as [|? ? F3 F4]. inversion_clear F1 as [|? ? Cpq F0].
  destruct (f_comm p q Wp Wq Cpq) as (c & d & Hc & _ & _). exists c. split; auto. split.
  - constructor; auto. exact (f_W p q c Wp Wq Hc).
  - constructor; auto. rewrite Forall_forall in *. intros x Hx. exact (f_Cm p q c x Wp Wq (Wl x Hx) Cpq (F0 x Hx) (F3 x Hx) Hc).
Qed.
Lemma many_ok l : forall p, family (p :: l) -> exists c, many p l = Ok c.
Proof.
  induction l as [|q l IH]; intros p H; cbn; [eauto|]. destruct (family_head p q l H) as (c & -> & Hc). cbn. auto.
Qed.
Lemma many_eqv l : forall p q c, many p l = Ok c -> eqv p q -> exists d, many q l = Ok d /\ eqv c d.
Proof.
  induction l as [|x l IH]; intros p q c H E1; cbn in *.
  - apply Ok_inj in H. subst. eauto.
  - apply bind_ok in H as (y & H1 & H2). destruct (f_eqv _ _ _ q x H1 E1 (eqv_refl x)) as (y' & -> & E2). cbn. eauto.
Qed.
Lemma many_req l p q : family (p :: l) -> eqv p q -> req (many p l) (many q l).
Proof.
  intros H E1. destruct (many_ok l p H) as [c Hc]. destruct (many_eqv l p q c Hc E1) as (d & Hd & E2). exists c, d. auto.
Qed.
Lemma many_refl p l : family (p :: l) -> req (many p l) (many p l).
Proof. intros H. now apply many_req. Qed.

(** Three arguments: the last two may be exchanged. *)
Lemma swap_last a b c l : family (a :: b :: c :: l) -> req (many a (b :: c :: l)) (many a (c :: b :: l)).
Proof.
  intros F.
  destruct (family_head a b (c :: l) F) as (ab & Hab & Fab). destruct (family_head ab c l Fab) as (d & Hd & Fd).
  assert (F' : family (a :: c :: b :: l)) by (eapply family_perm; [|exact F]; apply perm_skip, perm_swap).
  destruct (family_head a c (b :: l) F') as (ac & Hac & Fac). destruct (family_head ac b l Fac) as (e & He & Fe).
  cbn. rewrite Hab, Hac. cbn. rewrite Hd, He. cbn. apply many_req; auto.
  destruct F as [H1 H2]. inversion_clear H1 as [|? ? Wa H]. inversion_clear H as [|? ? Wb H0]. inversion_clear H0 as [|? ? Wc Wl].
  inversion_clear H2 as [|? ? F1 F2]. inversion_clear F2 as [|? ? F3 F4].
  inversion_clear F1 as [|? ? Cab F5]. inversion_clear F5 as [|? ? Cac F6]. inversion_clear F3 as [|? ? Cbc F7].
  assert (L1 : right_first f a b c = Ok d) by (apply f_assoc; auto; unfold left_first; rewrite Hab; exact Hd).
  assert (L2 : right_first f a c b = Ok e) by (apply f_assoc; auto; unfold left_first; rewrite Hac; exact He).
  unfold right_first in L1, L2. destruct (f_comm b c Wb Wc Cbc) as (x & y & Hx & Hy & Exy).
  rewrite Hx in L1. rewrite Hy in L2. cbn in L1, L2.
  destruct (f_eqv a x d a y L1 (eqv_refl a) Exy) as (e' & He' & Q). assert (e' = e) by congruence. now subst e'.
Qed.
Lemma many_perm l m : Permutation l m -> forall p, family (p :: l) -> req (many p l) (many p m).
Proof.
  induction 1 as [|x l m P IH|x y l|l m n P1 IH1 P2 IH2]; intros p F.
  - exact (many_refl p [] F).
  - destruct (family_head p x l F) as (c & Hc & Fc). cbn. rewrite Hc. cbn. auto.
  - exact (swap_last p y x l F).
  - eapply req_trans; [apply IH1; exact F|]. apply IH2. eapply family_perm; [|exact F]. now apply perm_skip.
Qed.
Lemma many_swap p q l : family (p :: q :: l) -> req (many p (q :: l)) (many q (p :: l)).
Proof.
  intros F. destruct (family_head p q l F) as (c & Hc & Fc). cbn. rewrite Hc.
  destruct F as [H1 H2]. inversion_clear H1 as [|? ? Wp H]. inversion_clear H as [|? ? Wq Wl].
  inversion_clear H2 as [|? ? F1 F2]. inversion_clear F1 as [|? ? Cpq F0].
  destruct (f_comm p q Wp Wq Cpq) as (c' & d & Hc' & Hd & Ecd). rewrite Hd. cbn. assert (c' = c) by congruence. subst c'. now apply many_req.
Qed.
Lemma many_perm_all p l q m : Permutation (p :: l) (q :: m) -> family (p :: l) -> req (many p l) (many q m).
Proof.
  intros P F. assert (Hq : In q (p :: l)) by (eapply Permutation_in; [apply Permutation_sym, P|now left]).
  destruct Hq as [<-|Hq].
  - apply many_perm; auto. eapply Permutation_cons_inv; eauto.
  - apply in_split in Hq as (l1 & l2 & ->).
    assert (P1 : Permutation (l1 ++ q :: l2) (q :: l1 ++ l2)) by apply Permutation_sym, Permutation_middle.
    assert (P2 : Permutation (p :: l1 ++ l2) m).
    { apply (Permutation_cons_inv (a := q)). eapply perm_trans; [|exact P]. eapply perm_trans; [apply perm_swap|].
      apply perm_skip. now apply Permutation_sym. }
    assert (F1 : family (p :: q :: l1 ++ l2)) by (eapply family_perm; [|exact F]; now apply perm_skip).
    assert (F2 : family (q :: p :: l1 ++ l2)) by (eapply family_perm; [|exact F1]; apply perm_swap).
    eapply req_trans; [apply (many_perm _ _ P1 _ F)|]. eapply req_trans; [now apply many_swap|]. apply (many_perm _ _ P2 _ F2).
Qed.

(** Plans *)
Lemma many_right l : forall a b, family (a :: b :: l) -> exists r, many b l = Ok r /\ req (f a r) (many a (b :: l)).
Proof.
  induction l as [|x l IH]; intros a b F.
  - cbn. exists b. split; auto. destruct (family_head a b [] F) as (c & Hc & _). rewrite Hc. cbn. exists c, c. auto.
  - assert (Fb : family (b :: x :: l)) by (destruct F as [H1 H2]; inversion_clear H1; inversion_clear H2; now split).
    destruct (family_head b x l Fb) as (bx & Hbx & Fbx).
    assert (Fa : family (a :: bx :: l)).
    { destruct F as [H1 H2]. inversion_clear H1 as [|? ? Wa H]. inversion_clear H as [|? ? Wb H0]. inversion_clear H0 as [|? ? Wx Wl].
      inversion_clear H2 as [|? ? F1 F2]. inversion_clear F2 as [|? ? F3 F4].
      inversion_clear F1 as [|? ? Cab F5]. inversion_clear F5 as [|? ? Cax F6]. inversion_clear F3 as [|? ? Cbx F7].
      destruct Fbx as [G1 G2]. split; constructor; auto. constructor; auto.
      apply Cm_sym. eapply (f_Cm b x bx a); eauto. }
    destruct (IH a bx Fa) as (r & Hr & Q). cbn. rewrite Hbx. cbn. exists r. split; auto.
    eapply req_trans; [exact Q|].
    destruct (family_head a b (x :: l) F) as (ab & Hab & Fab). destruct (family_head ab x l Fab) as (d & Hd & Fd).
    cbn. rewrite Hab. cbn. rewrite Hd. cbn.
    destruct F as [H1 H2]. inversion_clear H1 as [|? ? Wa H]. inversion_clear H as [|? ? Wb H0]. inversion_clear H0 as [|? ? Wx Wl].
    inversion_clear H2 as [|? ? F1 F2]. inversion_clear F2 as [|? ? F3 F4].
    inversion_clear F1 as [|? ? Cab F5]. inversion_clear F5 as [|? ? Cax F6]. inversion_clear F3 as [|? ? Cbx F7].
    assert (L1 : right_first f a b x = Ok d) by (apply f_assoc; auto; unfold left_first; rewrite Hab; exact Hd).
    unfold right_first in L1. rewrite Hbx in L1. cbn in L1. rewrite L1. cbn. now apply many_refl.
Qed.
Lemma many_app l m : forall p, many p (l ++ m) = (c <- many p l ;; many c m).
Proof. induction l as [|x l IH]; intros p; cbn; [reflexivity|]. destruct (f p x); cbn; auto. Qed.
Lemma family_app_l l m : family (l ++ m) -> family l.
Proof.
  intros [H1 H2]. split; [now apply Forall_app in H1|]. clear H1. induction l as [|x l IH]; cbn in *; [constructor|].
  inversion_clear H2 as [|? ? F1 F2]. apply Forall_app in F1 as [F1 _]. constructor; auto.
Qed.
Lemma family_app_r l m : family (l ++ m) -> family m.
Proof.
  intros [H1 H2]. split; [now apply Forall_app in H1|]. clear H1. induction l as [|x l IH]; cbn in *; auto.
  inversion_clear H2. auto.
Qed.
Lemma many_family p l m c : family (p :: l ++ m) -> many p l = Ok c -> family (c :: m).
Proof.
  revert p. induction l as [|x l IH]; intros p F H; cbn in *.
  - apply Ok_inj in H. now subst.
  - destruct (family_head p x (l ++ m) F) as (y & Hy & Fy). rewrite Hy in H. cbn in H. eauto.
Qed.
Lemma plan_many t : forall p l, members t = p :: l -> family (p :: l) -> req (carry_out f t) (many p l).
Proof.
  induction t as [a|s IHs t IHt]; intros p l M F.
  - cbn in M. injection M as <- <-. cbn. exists a, a. auto.
  - cbn [members] in M. destruct (members s) as [|p' ls] eqn:Ms; [exfalso; clear -Ms; induction s; cbn in Ms; [discriminate|]; apply app_eq_nil in Ms as [Ms _]; auto|].
    destruct (members t) as [|q lt] eqn:Mt; [exfalso; clear -Mt; induction t; cbn in Mt; [discriminate|]; apply app_eq_nil in Mt as [Mt _]; auto|].
    cbn in M. injection M as <- <-.
    pose proof (family_app_l (p' :: ls) (q :: lt) F) as Fs. pose proof (family_app_r (p' :: ls) (q :: lt) F) as Ft.
    destruct (IHs p' ls eq_refl Fs) as (c & d & Hc & Hd & Ecd). destruct (IHt q lt eq_refl Ft) as (x & y & Hx & Hy & Exy).
    cbn. rewrite Hc, Hx. cbn. rewrite many_app, Hd. cbn [bind].
    pose proof (many_family p' ls (q :: lt) d F Hd) as Fd.
    destruct (many_right lt d q Fd) as (r & Hr & Q). assert (r = y) by congruence. subst r.
    eapply req_trans; [|exact Q]. destruct Q as (u & _ & Hu & _ & _).
    destruct (f_eqv d y u c x Hu (eqv_sym _ _ Ecd) (eqv_sym _ _ Exy)) as (u' & Hu' & Eu). exists u', u. auto.
Qed.
Lemma plan_order s t : Permutation (members s) (members t) -> family (members s) -> req (carry_out f s) (carry_out f t).
Proof.
  intros P F.
  destruct (members s) as [|p ls] eqn:Ms; [exfalso; clear -Ms; induction s; cbn in Ms; [discriminate|]; apply app_eq_nil in Ms as [Ms _]; auto|].
  destruct (members t) as [|q lt] eqn:Mt; [exfalso; clear -Mt; induction t; cbn in Mt; [discriminate|]; apply app_eq_nil in Mt as [Mt _]; auto|].
  pose proof (family_perm _ _ P F) as F'.
  eapply req_trans; [apply (plan_many s _ _ Ms F)|]. eapply req_trans; [apply (many_perm_all _ _ _ _ P F)|].
  apply req_sym. now apply plan_many.
Qed.

(** What a member contains is in the result and vice versa. *)
Lemma plan_contains {T} (U : A -> T -> Prop) :
  (forall a b c t, W a -> W b -> Cm a b -> f a b = Ok c -> (U c t <-> U a t \/ U b t)) ->
  forall s c, family (members s) -> carry_out f s = Ok c ->
  W c /\ (forall x, W x -> Forall (Cm x) (members s) -> Cm x c) /\ forall t, U c t <-> Exists (fun p => U p t) (members s).
Proof.
  intros HU. induction s as [a|s IHs t IHt]; intros c F H; cbn in *.
  - apply Ok_inj in H. subst c. destruct F as [F1 F2]. inversion_clear F1. split; auto. split.
    + intros x _ Hx. now inversion_clear Hx.
    + intros u. split; [now constructor|]. intros Q. inversion_clear Q as [? ? Hq|? ? Hq]; auto. inversion Hq.
  - apply bind_ok in H as (a & Ha & H). apply bind_ok in H as (b & Hb & H).
    destruct (IHs a (family_app_l _ _ F) Ha) as (Wa & Ca & Ua). destruct (IHt b (family_app_r _ _ F) Hb) as (Wb & Cb & Ub).
    assert (Cab : Cm a b).
    { apply Cb; auto. apply Forall_forall. intros y Hy. apply Cm_sym. destruct F as [F1 F2]. apply Ca.
      - rewrite Forall_forall in F1. apply F1, in_or_app. auto.
      - clear -F2 Hy Cm_sym. induction (members s) as [|x l IH]; constructor; cbn in F2; inversion_clear F2 as [|? ? G1 G2]; auto.
        rewrite Forall_forall in G1. apply Cm_sym, G1, in_or_app. auto. }
    split; [exact (f_W a b c Wa Wb H)|]. split.
    + intros x Wx Hx. apply Forall_app in Hx as [Hx1 Hx2]. apply Cm_sym. apply (f_Cm a b c x); auto.
    + intros u. rewrite (HU a b c u Wa Wb Cab H), Exists_app, Ua, Ub. reflexivity.
Qed.
End Algebra.

(** ** Equality up to tap trees *)
Lemma F2_refl {A} (R : A -> A -> Prop) : (forall a, R a a) -> forall l, Forall2 R l l.
Proof. induction l; auto. Qed.
Lemma F2_sym {A} (R : A -> A -> Prop) : (forall a b, R a b -> R b a) -> forall l m, Forall2 R l m -> Forall2 R m l.
Proof. induction 2; auto. Qed.
Lemma F2_trans {A} (R : A -> A -> Prop) : (forall a b c, R a b -> R b c -> R a c) ->
  forall l m n, Forall2 R l m -> Forall2 R m n -> Forall2 R l n.
Proof. intros H l m n H1. revert n. induction H1; intros n H2; inversion_clear H2; constructor; eauto. Qed.
Lemma F2_length {A B} (R : A -> B -> Prop) l m : Forall2 R l m -> length l = length m.
Proof. induction 1; cbn; auto. Qed.

Lemma no_conflict_from l m c x : (forall p, In p c -> In p l \/ In p m) -> no_conflict l x -> no_conflict m x -> no_conflict c x.
Proof. intros H H1 H2 p q Hp Hq E. destruct (H p Hp) as [Q|Q]; [exact (H1 _ _ Q Hq E)|exact (H2 _ _ Q Hq E)]. Qed.

(** The conditions on utxos. *)
Definition sw (w w' : option txout) : Prop := w = None /\ w' <> None.
Lemma compat_regroupable wa wb wc na nb nc :
  (sw wa wb \/ sw wb wa -> na = None /\ nb = None) -> (sw wa wc \/ sw wc wa -> na = None /\ nc = None) ->
  (sw wb wc \/ sw wc wb -> nb = None /\ nc = None) -> regroupable wa wb wc na nb nc.
Proof.
  unfold sw, regroupable. intros H1 H2 H3. destruct wa as [wa|], wb as [wb|], wc as [wc|]; split; intros; try congruence.
  - destruct H1 as [? ?]; [right; split; congruence|]. destruct H3 as [? ?]; [left; split; congruence|]. auto.
  - destruct H2 as [? ?]; [left; split; congruence|]. auto.
  - destruct H3 as [? ?]; [right; split; congruence|]. auto.
Qed.
Lemma compat_comb_utxo wa wb wx na nb (nx : option tx) :
  (sw wa wb \/ sw wb wa -> na = None /\ nb = None) -> (sw wa wx \/ sw wx wa -> na = None /\ nx = None) ->
  (sw wb wx \/ sw wx wb -> nb = None /\ nx = None) ->
  sw (snd (comb_utxo wa wb na nb)) wx \/ sw wx (snd (comb_utxo wa wb na nb)) -> fst (comb_utxo wa wb na nb) = None /\ nx = None.
Proof.
  unfold sw. intros H1 H2 H3 H. destruct wa as [wa|], wb as [wb|], wx as [wx|]; cbn in *;
    try (exfalso; destruct H as [[? ?]|[? ?]]; congruence).
  - destruct H2 as [-> ->]; [right; split; congruence|]. destruct H3 as [-> _]; [right; split; congruence|]. auto.
  - destruct H2 as [-> ->]; [right; split; congruence|]. destruct H1 as [_ ->]; [right; split; congruence|]. auto.
  - destruct H3 as [-> ->]; [right; split; congruence|]. auto.
  - destruct H2 as [-> ->]; [left; split; congruence|]. destruct H3 as [-> _]; [left; split; congruence|]. auto.
Qed.

(** ** v2 *)
Section V2.
Context `{X : Ext} `{L : !ExtLaws X} `{C : Cfg}.

Lemma output_eq_refl o : output_eq o o.
Proof. split; auto. Qed.
Lemma output_eq_sym a b : output_eq a b -> output_eq b a.
Proof. intros [H1 H2]. split; auto. Qed.
Lemma output_eq_trans a b c : output_eq a b -> output_eq b c -> output_eq a c.
Proof. intros [H1 H2] [H3 H4]. split; congruence. Qed.
Lemma psbt_eq_refl p : psbt_eq p p.
Proof. split; [auto|]. split; [auto|]. apply F2_refl, output_eq_refl. Qed.
Lemma psbt_eq_sym p q : psbt_eq p q -> psbt_eq q p.
Proof. intros (H1 & H2 & H3). split; [auto|]. split; [auto|]. exact (F2_sym _ output_eq_sym _ _ H3). Qed.
Lemma psbt_eq_trans p q r : psbt_eq p q -> psbt_eq q r -> psbt_eq p r.
Proof.
  intros (H1 & H2 & H3) (H4 & H5 & H6). split; [congruence|]. split; [congruence|]. exact (F2_trans _ output_eq_trans _ _ _ H3 H6).
Qed.
Lemma output_combine_eqv a b c a' b' : output_combine a b = Ok c -> output_eq a a' -> output_eq b b' ->
  exists c', output_combine a' b' = Ok c' /\ output_eq c c'.
Proof.
  intros H [A1 A2] [B1 B2]. apply join_output_ok in H as [K ->]. exists (join_output a' b').
  destruct a, a', b, b'. unfold set_out_tap_tree in A2, B2. cbn in A1, A2, B1, B2. injection A2. injection B2. intros; subst.
  split; [apply join_output_ok; split; [exact K|reflexivity]|]. split; [|reflexivity]. cbn.
  destruct out_tap_tree, out_tap_tree0, out_tap_tree1, out_tap_tree2; cbn in *; try discriminate; auto.
Qed.
Lemma zip_eqv {E A} (f : A -> A -> res E A) (R : A -> A -> Prop) :
  (forall a b c a' b', f a b = Ok c -> R a a' -> R b b' -> exists c', f a' b' = Ok c' /\ R c c') ->
  forall l m r l' m', combine_zip f l m = Ok r -> Forall2 R l l' -> Forall2 R m m' -> exists r', combine_zip f l' m' = Ok r' /\ Forall2 R r r'.
Proof.
  intros Hf. induction l as [|a l IH]; intros m r l' m' H Hl Hm; inversion Hl; subst; cbn in *.
  - apply Ok_inj in H. subst. eauto.
  - destruct m as [|b m]; inversion Hm; subst; cbn in *.
    + apply Ok_inj in H. subst. eauto.
    + apply bind_ok in H as (c & Q1 & H). apply bind_ok in H as (cs & Q2 & H). apply Ok_inj in H. subst r.
      destruct (Hf _ _ _ _ _ Q1 ltac:(eassumption) ltac:(eassumption)) as (c' & -> & Hc). cbn.
      destruct (IH _ _ _ _ Q2 ltac:(eassumption) ltac:(eassumption)) as (cs' & -> & Hcs). cbn. eauto.
Qed.
Lemma psbt_combine_eqv a b c a' b' : psbt_combine a b = Ok c -> psbt_eq a a' -> psbt_eq b b' ->
  exists c', psbt_combine a' b' = Ok c' /\ psbt_eq c c'.
Proof.
  intros H (A1 & A2 & A3) (B1 & B2 & B3). apply psbt_combine_ok in H as (Hg & Hi & Ho).
  destruct (zip_eqv output_combine output_eq output_combine_eqv _ _ _ _ _ Ho A3 B3) as (os & Hos & Q).
  exists (Psbt (p_global c) (p_inputs c) os). split.
  - apply psbt_combine_ok. cbn. rewrite <- A1, <- A2, <- B1, <- B2. auto.
  - split; [auto|]. split; [auto|]. exact Q.
Qed.

Lemma compatible_sym p q : compatible p q -> compatible q p.
Proof.
  intros (H1 & H2 & H3). split; [now apply compatible_globals_sym|]. split.
  - exact (F2_sym _ compatible_inputs_sym _ _ H2).
  - refine (F2_sym _ _ _ _ H3). intros a b. apply no_conflict_sym.
Qed.
Lemma zip_compat {E A} (f : A -> A -> res E A) (R : A -> A -> Prop) :
  (forall a b c x, f a b = Ok c -> R a b -> R a x -> R b x -> R c x) ->
  forall l m r n, combine_zip f l m = Ok r -> Forall2 R l m -> Forall2 R l n -> Forall2 R m n -> Forall2 R r n.
Proof.
  intros Hf. induction l as [|a l IH]; intros m r n H H1 H2 H3; inversion H1; subst; inversion H2; subst; inversion H3; subst; cbn in *.
  - apply Ok_inj in H. subst. constructor.
  - apply bind_ok in H as (c & Q1 & H). apply bind_ok in H as (cs & Q2 & H). apply Ok_inj in H. subst r.
    constructor; eauto.
Qed.
Lemma input_compat a b c x : input_combine a b = Ok c -> compatible_inputs a b -> compatible_inputs a x -> compatible_inputs b x ->
  compatible_inputs c x.
Proof.
  intros H (A1 & A2 & A3) (B1 & B2 & B3) (D1 & D2 & D3). split; [|split].
  - apply (no_conflict_from (input_pairs a) (input_pairs b)); auto. intros p. now apply input_combine_from.
  - apply join_input_ok in H as [_ ->]. exact B2.
  - apply join_input_ok in H as [_ ->]. exact (compat_comb_utxo _ _ _ _ _ _ A3 B3 D3).
Qed.
Lemma psbt_compat a b c x : compatible a b -> compatible a x -> compatible b x -> psbt_combine a b = Ok c -> compatible c x.
Proof.
  intros ([A1 A2] & A3 & A4) ([B1 B2] & B3 & B4) ([D1 D2] & D3 & D4) H. apply psbt_combine_ok in H as (Hg & Hi & Ho).
  split; [split|split].
  - apply (no_conflict_from (global_pairs (p_global a)) (global_pairs (p_global b))); auto. intros p. now apply global_combine_from.
  - apply global_combine_iff in Hg as (_ & _ & _ & ->). exact B2.
  - exact (zip_compat input_combine _ input_compat _ _ _ _ Hi A3 B3 D3).
  - refine (zip_compat output_combine _ _ _ _ _ _ Ho A4 B4 D4). intros i j k y Hc _ Q1 Q2.
    apply (no_conflict_from (output_pairs i) (output_pairs j)); auto. intros p. now apply output_combine_from.
Qed.
Lemma compatible_counts p q : compatible p q -> same_counts p q.
Proof. intros (_ & H1 & H2). split; eapply F2_length; eauto. Qed.
Lemma F2_nth {A B} (R : A -> B -> Prop) l m : Forall2 R l m -> forall n a b, nth_error l n = Some a -> nth_error m n = Some b -> R a b.
Proof. induction 1; intros [|n] x' y'; cbn; try discriminate; [intros [= <-] [= <-]; auto|eauto]. Qed.
Lemma psbt_combine_assoc_compat a b c d : wf_psbt a -> wf_psbt b -> wf_psbt c -> compatible a b -> compatible a c -> compatible b c ->
  left_first psbt_combine a b c = Ok d -> right_first psbt_combine a b c = Ok d.
Proof.
  intros Wa Wb Wc Cab Cac Cbc H.
  apply wf_sorted in Wa, Wb, Wc. pose proof (compatible_counts _ _ Cab) as Lab. pose proof (compatible_counts _ _ Cbc) as Lbc.
  destruct (regroup_right_ok a b c Wa Wb Wc Lab Lbc d H) as (e & He & _). rewrite He. f_equal. symmetry.
  apply (regroup_eq a b c Wa Wb Wc Lab Lbc d e H He). intros n i j k Hi Hj Hk.
  destruct Cab as (_ & I1 & _), Cac as (_ & I2 & _), Cbc as (_ & I3 & _).
  destruct (F2_nth _ _ _ I1 n i j Hi Hj) as (_ & _ & U1), (F2_nth _ _ _ I2 n i k Hi Hk) as (_ & _ & U2), (F2_nth _ _ _ I3 n j k Hj Hk) as (_ & _ & U3).
  exact (compat_regroupable _ _ _ _ _ _ U1 U2 U3).
Qed.

Lemma plans_agree s t : Permutation (members s) (members t) -> Forall wf_psbt (members s) -> ForallOrdPairs compatible (members s) ->
  exists c d, carry_out psbt_combine s = Ok c /\ carry_out psbt_combine t = Ok d /\ psbt_eq c d.
Proof.
  intros P H1 H2.
  refine (plan_order psbt_combine psbt_eq wf_psbt compatible psbt_eq_refl psbt_eq_sym psbt_eq_trans compatible_sym psbt_combine_comm _ _ psbt_combine_assoc_compat psbt_combine_eqv s t P (conj H1 H2)).
  - intros a b c Wa Wb H. exact (psbt_combine_wf a b c H Wa Wb).
  - intros a b c x _ _ _. apply psbt_compat.
Qed.
End V2.

Lemma union_pairs la lb lc e : no_conflict la lb -> no_conflict la la -> no_conflict lb lb ->
  (forall p, In p lc -> In p la \/ In p lb) ->
  (In e la \/ In e lb -> In (p_key e) (keys lc)) -> (In e lc <-> In e la \/ In e lb).
Proof.
  intros N Na Nb H1 H2. split; [apply H1|]. intros He. specialize (H2 He). unfold keys in H2. apply in_map_iff in H2 as (q & Ek & Hq).
  assert (p_value q = p_value e).
  { destruct He as [He|He], (H1 q Hq) as [Q|Q]; [apply (Na q e)|symmetry; apply (N e q)|apply (N q e)|apply (Nb q e)]; auto. }
  destruct q, e. cbn in *. now subst.
Qed.
Lemma nodup_no_conflict l : NoDup (keys l) -> no_conflict l l.
Proof.
  intros H p q Hp Hq E. unfold keys in H. revert H p q Hp Hq E. induction l as [|a l IH]; cbn; [intros _ ? ? []|].
  intros N p q Hp Hq E. inversion_clear N as [|? ? N1 N2].
  destruct Hp as [<-|Hp], Hq as [<-|Hq]; auto.
  - exfalso. apply N1. rewrite E. now apply in_map.
  - exfalso. apply N1. rewrite <- E. now apply in_map.
Qed.
Lemma key_in e l : In e l -> In (p_key e) (keys l).
Proof. intros H. unfold keys. now apply in_map. Qed.

Section Union.
Context `{X : Ext} {L : ExtLaws X} `{C : Cfg}.
Lemma input_union a b c e : wf_input a -> wf_input b -> compatible_inputs a b -> input_combine a b = Ok c ->
  (In e (input_pairs c) <-> In e (input_pairs a) \/ In e (input_pairs b)).
Proof.
  intros Wa Wb Hc H. pose proof Hc as (A1 & A2 & A3). apply union_pairs; auto using nodup_no_conflict, input_pairs_nodup.
  - intros p. now apply input_combine_from.
  - intros He. apply (compatible_inputs_all a b c); auto. destruct He as [He|He]; auto using key_in.
Qed.
Lemma output_union a b c e : wf_output a -> wf_output b -> compatible_outputs a b -> output_combine a b = Ok c ->
  (In e (output_pairs c) <-> In e (output_pairs a) \/ In e (output_pairs b)).
Proof.
  intros Wa Wb Hc H. apply union_pairs; auto using nodup_no_conflict, output_pairs_nodup.
  - intros p. now apply output_combine_from.
  - intros He. apply (output_combine_keys a b c); auto. destruct He as [He|He]; auto using key_in.
Qed.
Lemma global_union a b c e : wf_global a -> wf_global b -> compatible_globals a b -> global_combine a b = Ok c ->
  (In e (global_pairs c) <-> In e (global_pairs a) \/ In e (global_pairs b)).
Proof.
  intros Wa Wb Hc H. pose proof Hc as (A1 & A2). apply union_pairs; auto using nodup_no_conflict, global_pairs_nodup.
  - intros p. now apply global_combine_from.
  - intros He. apply (compatible_globals_all a b c); auto. destruct He as [He|He]; auto using key_in.
Qed.

Lemma zip_union {E A} (f : A -> A -> res E A) (prs : A -> list pair) (P : A -> Prop) (R : A -> A -> Prop) :
  (forall a b c e, P a -> P b -> R a b -> f a b = Ok c -> (In e (prs c) <-> In e (prs a) \/ In e (prs b))) ->
  forall l m r, combine_zip f l m = Ok r -> Forall P l -> Forall P m -> Forall2 R l m -> forall n e,
  (exists x, nth_error r n = Some x /\ In e (prs x)) <->
  (exists x, nth_error l n = Some x /\ In e (prs x)) \/ (exists x, nth_error m n = Some x /\ In e (prs x)).
Proof.
  intros Hf. induction l as [|a l IH]; intros m r H Pl Pm HR n e; inversion HR; subst; cbn in H.
  - apply Ok_inj in H. subst. split; auto. intros [H|H]; auto.
  - apply bind_ok in H as (c & Q1 & H). apply bind_ok in H as (cs & Q2 & H). apply Ok_inj in H. subst r.
    inversion_clear Pl; inversion_clear Pm. destruct n as [|n]; cbn; [|now apply IH].
    split.
    + intros (z & Ez & Hz). injection Ez as <-. apply (Hf a y c e) in Hz; auto. destruct Hz; eauto.
    + intros [(z & Ez & Hz)|(z & Ez & Hz)]; injection Ez as <-; exists c; (split; [auto|]); apply (Hf a y c e); auto.
Qed.
Lemma psbt_union a b c le : wf_psbt a -> wf_psbt b -> compatible a b -> psbt_combine a b = Ok c ->
  (entry c (fst le) (snd le) <-> entry a (fst le) (snd le) \/ entry b (fst le) (snd le)).
Proof.
  intros Wa Wb (H1 & H2 & H3) H. apply psbt_combine_ok in H as (Hg & Hi & Ho). destruct le as [[|n|n] e]; cbn.
  - exact (global_union _ _ _ e (wp_global _ Wa) (wp_global _ Wb) H1 Hg).
  - exact (zip_union input_combine input_pairs wf_input compatible_inputs input_union _ _ _ Hi (wp_inputs _ Wa) (wp_inputs _ Wb) H2 n e).
  - exact (zip_union output_combine output_pairs wf_output compatible_outputs output_union _ _ _ Ho (wp_outputs _ Wa) (wp_outputs _ Wb) H3 n e).
Qed.
Lemma plan_union s c : Forall wf_psbt (members s) -> ForallOrdPairs compatible (members s) -> carry_out psbt_combine s = Ok c ->
  wf_psbt c /\ forall l e, entry c l e <-> Exists (fun p => entry p l e) (members s).
Proof.
  intros H1 H2 H.
  destruct (plan_contains psbt_combine wf_psbt compatible compatible_sym (fun a b c Wa Wb H => psbt_combine_wf a b c H Wa Wb)
    (fun a b c x _ _ _ => psbt_compat a b c x) (fun p le => entry p (fst le) (snd le)) psbt_union s c (conj H1 H2) H) as (Wc & _ & U).
  split; auto. intros l e. exact (U (l, e)).
Qed.
End Union.

(** ** v0 *)
Section V0.
Context `{X : Ext} {L : ExtLaws X}.

Lemma output0_eq_refl o : output0_eq o o.
Proof. split; auto. Qed.
Lemma output0_eq_sym a b : output0_eq a b -> output0_eq b a.
Proof. intros [H1 H2]. split; auto. Qed.
Lemma output0_eq_trans a b c : output0_eq a b -> output0_eq b c -> output0_eq a c.
Proof. intros [H1 H2] [H3 H4]. split; congruence. Qed.
Lemma psbt0_eq_refl p : psbt0_eq p p.
Proof. split; [auto|]. apply F2_refl, output0_eq_refl. Qed.
Lemma psbt0_eq_sym p q : psbt0_eq p q -> psbt0_eq q p.
Proof. intros (H1 & H2). split; [auto|]. exact (F2_sym _ output0_eq_sym _ _ H2). Qed.
Lemma psbt0_eq_trans p q r : psbt0_eq p q -> psbt0_eq q r -> psbt0_eq p r.
Proof. intros (H1 & H2) (H3 & H4). split; [congruence|]. exact (F2_trans _ output0_eq_trans _ _ _ H2 H4). Qed.
Lemma output0_combine_eqv a b a' b' : output0_eq a a' -> output0_eq b b' -> output0_eq (output0_combine a b) (output0_combine a' b').
Proof.
  intros [A1 A2] [B1 B2]. destruct a, a', b, b'. unfold set_o0_tap_tree in A2, B2. cbn in A1, A2, B1, B2.
  injection A2. injection B2. intros; subst. split; [|reflexivity]. cbn.
  destruct o0_tap_tree, o0_tap_tree0, o0_tap_tree1, o0_tap_tree2; cbn in *; try discriminate; auto.
Qed.
Lemma zip_combine_eqv {A} (f : A -> A -> A) (R : A -> A -> Prop) :
  (forall a b a' b', R a a' -> R b b' -> R (f a b) (f a' b')) ->
  forall l m l' m', Forall2 R l l' -> Forall2 R m m' -> Forall2 R (zip_combine f l m) (zip_combine f l' m').
Proof.
  intros Hf. induction l as [|a l IH]; intros m l' m' Hl Hm; inversion Hl; subst; cbn; [constructor|].
  inversion Hm; subst; auto.
Qed.
Lemma psbt0_combine_eqv a b c a' b' : psbt0_combine a b = Ok c -> psbt0_eq a a' -> psbt0_eq b b' ->
  exists c', psbt0_combine a' b' = Ok c' /\ psbt0_eq c c'.
Proof.
  intros H (A1 & A2) (B1 & B2). apply psbt0_combine_ok in H as (E1 & xs & Hx & ->).
  destruct a, a', b, b'. unfold set_p0_outputs in A1, B1. cbn in *. injection A1. injection B1. intros; subst.
  eexists. split; [apply psbt0_combine_ok; cbn; split; [reflexivity|]; exists xs; split; [exact Hx|reflexivity]|].
  split; [reflexivity|]. cbn. exact (zip_combine_eqv _ _ output0_combine_eqv _ _ _ _ A2 B2).
Qed.

Lemma compatible0_sym p q : compatible0 p q -> compatible0 q p.
Proof.
  intros (H1 & H2 & H3). split; [now apply no_conflict_sym|]. split.
  - exact (F2_sym _ compatible_inputs0_sym _ _ H2).
  - refine (F2_sym _ _ _ _ H3). intros a b. apply no_conflict_sym.
Qed.
Lemma zip_compat0 {A} (f : A -> A -> A) (R : A -> A -> Prop) :
  (forall a b x, R a b -> R a x -> R b x -> R (f a b) x) ->
  forall l m n, Forall2 R l m -> Forall2 R l n -> Forall2 R m n -> Forall2 R (zip_combine f l m) n.
Proof.
  intros Hf. induction l as [|a l IH]; intros m n H1 H2 H3; inversion H1; subst; inversion H2; subst; inversion H3; subst; cbn; auto.
Qed.
Lemma input0_compat a b x : compatible_inputs0 a b -> compatible_inputs0 a x -> compatible_inputs0 b x ->
  compatible_inputs0 (input0_combine a b) x.
Proof.
  intros (A1 & A2 & A3) (B1 & B2 & B3) (D1 & D2 & D3). split; [|split].
  - apply (no_conflict_from (input0_pairs a) (input0_pairs b)); auto. intros p. now apply input0_combine_from.
  - exact B2.
  - unfold utxo_switch0. rewrite nwu0_eq, wu0_eq. exact (compat_comb_utxo _ _ _ _ _ _ A3 B3 D3).
Qed.
Lemma psbt0_compat a b c x : compatible0 a b -> compatible0 a x -> compatible0 b x -> psbt0_combine a b = Ok c -> compatible0 c x.
Proof.
  intros (A1 & A3 & A4) (B1 & B3 & B4) (D1 & D3 & D4) H. apply psbt0_combine_ok in H as (E1 & xs & Hx & ->).
  split; [|split].
  - apply (no_conflict_from (global0_pairs a) (global0_pairs b)); auto. intros p. now apply combined0_from.
  - exact (zip_compat0 input0_combine _ input0_compat _ _ _ A3 B3 D3).
  - refine (zip_compat0 output0_combine _ _ _ _ _ A4 B4 D4). intros i j y _ Q1 Q2.
    apply (no_conflict_from (output0_pairs i) (output0_pairs j)); auto. intros p. now apply output0_combine_from.
Qed.
Lemma compatible0_counts p q : compatible0 p q -> same_counts0 p q.
Proof. intros (_ & H1 & H2). split; eapply F2_length; eauto. Qed.
Lemma parts_sorted0 p : wf_parts0 p -> sorted_psbt0 p.
Proof.
  intros ((_ & _ & [H1 _] & [H2 _] & [H3 _]) & H4 & H5). constructor; auto.
  - eapply Forall_impl; [|exact H4]. intros i I. constructor.
    + exact (proj1 (wi0_partial_sigs _ I)).
    + exact (proj1 (wi0_bip32 _ I)).
    + exact (proj1 (proj1 (wi0_ripemd160 _ I))).
    + exact (proj1 (proj1 (wi0_sha256 _ I))).
    + exact (proj1 (proj1 (wi0_hash160 _ I))).
    + exact (proj1 (proj1 (wi0_hash256 _ I))).
    + exact (proj1 (wi0_tap_script_sigs _ I)).
    + exact (proj1 (wi0_tap_scripts _ I)).
    + exact (proj1 (wi0_tap_key_origins _ I)).
    + exact (proj1 (wi0_props _ I)).
    + exact (proj1 (wi0_unknown _ I)).
  - eapply Forall_impl; [|exact H5]. intros i I. constructor.
    + exact (proj1 (wo0_bip32 _ I)).
    + exact (proj1 (wo0_tap_key_origins _ I)).
    + exact (proj1 (wo0_props _ I)).
    + exact (proj1 (wo0_unknown _ I)).
Qed.
Lemma parts0_combine_wf a b c : wf_parts0 a -> wf_parts0 b -> psbt0_combine a b = Ok c -> wf_parts0 c.
Proof.
  intros (Ga & Ia & Oa) (Gb & Ib & Ob) H. apply psbt0_combine_ok in H as (_ & xs & Hx & ->). split; [now apply combined0_g0|].
  split; cbn.
  - apply zip_combine_forall; auto using input0_combine_wf.
  - apply zip_combine_forall; auto using output0_combine_wf.
Qed.
Lemma psbt0_combine_assoc_compat a b c d : wf_parts0 a -> wf_parts0 b -> wf_parts0 c ->
  compatible0 a b -> compatible0 a c -> compatible0 b c ->
  left_first psbt0_combine a b c = Ok d -> right_first psbt0_combine a b c = Ok d.
Proof.
  intros Wa Wb Wc Cab Cac Cbc H.
  apply parts_sorted0 in Wa, Wb, Wc. pose proof (compatible0_counts _ _ Cab) as Lab. pose proof (compatible0_counts _ _ Cbc) as Lbc.
  destruct (regroup0_right_ok a b c Wa Wb Wc Lab Lbc d H) as (e & He & _). rewrite He. f_equal. symmetry.
  apply (regroup0_eq a b c Wa Wb Wc Lab Lbc d e H He). intros n i j k Hi Hj Hk.
  destruct Cab as (_ & I1 & _), Cac as (_ & I2 & _), Cbc as (_ & I3 & _).
  destruct (F2_nth _ _ _ I1 n i j Hi Hj) as (_ & _ & U1), (F2_nth _ _ _ I2 n i k Hi Hk) as (_ & _ & U2), (F2_nth _ _ _ I3 n j k Hj Hk) as (_ & _ & U3).
  exact (compat_regroupable _ _ _ _ _ _ U1 U2 U3).
Qed.

Lemma plans_agree0 s t : Permutation (members s) (members t) -> Forall wf_psbt0 (members s) -> ForallOrdPairs compatible0 (members s) ->
  exists c d, carry_out psbt0_combine s = Ok c /\ carry_out psbt0_combine t = Ok d /\ psbt0_eq c d.
Proof.
  intros P H1 H2.
  refine (plan_order psbt0_combine psbt0_eq wf_parts0 compatible0 psbt0_eq_refl psbt0_eq_sym psbt0_eq_trans compatible0_sym
    parts0_combine_comm parts0_combine_wf _ psbt0_combine_assoc_compat psbt0_combine_eqv s t P (conj _ H2)).
  - intros a b c x _ _ _. apply psbt0_compat.
  - eapply Forall_impl; [|exact H1]. apply wf_psbt0_parts.
Qed.

Lemma input0_union a b e : wf_input0 a -> wf_input0 b -> compatible_inputs0 a b ->
  (In e (input0_pairs (input0_combine a b)) <-> In e (input0_pairs a) \/ In e (input0_pairs b)).
Proof.
  intros Wa Wb Hc. pose proof Hc as (A1 & A2 & A3). apply union_pairs; auto using nodup_no_conflict, input0_pairs_nodup.
  - intros p. now apply input0_combine_from.
  - intros He. apply (compatible_inputs0_all a b); auto. destruct He as [He|He]; auto using key_in.
Qed.
Lemma output0_union a b e : wf_output0 a -> wf_output0 b -> compatible_outputs0 a b ->
  (In e (output0_pairs (output0_combine a b)) <-> In e (output0_pairs a) \/ In e (output0_pairs b)).
Proof.
  intros Wa Wb Hc. apply union_pairs; auto using nodup_no_conflict, output0_pairs_nodup.
  - intros p. now apply output0_combine_from.
  - intros He. apply (output0_combine_keys a b). destruct He as [He|He]; auto using key_in.
Qed.
Lemma zip_union0 {A} (f : A -> A -> A) (prs : A -> list pair) (P : A -> Prop) (R : A -> A -> Prop) :
  (forall a b e, P a -> P b -> R a b -> (In e (prs (f a b)) <-> In e (prs a) \/ In e (prs b))) ->
  forall l m, Forall P l -> Forall P m -> Forall2 R l m -> forall n e,
  (exists x, nth_error (zip_combine f l m) n = Some x /\ In e (prs x)) <->
  (exists x, nth_error l n = Some x /\ In e (prs x)) \/ (exists x, nth_error m n = Some x /\ In e (prs x)).
Proof.
  intros Hf. induction l as [|a l IH]; intros m Pl Pm HR n e; inversion HR; subst; cbn [zip_combine].
  - split; auto. intros [H|H]; auto.
  - inversion_clear Pl; inversion_clear Pm. destruct n as [|n]; cbn; [|now apply IH].
    split.
    + intros (z & Ez & Hz). injection Ez as <-. apply (Hf a y e) in Hz; auto. destruct Hz; eauto.
    + intros [(z & Ez & Hz)|(z & Ez & Hz)]; injection Ez as <-; eexists; (split; [reflexivity|]); apply (Hf a y e); auto.
Qed.
Lemma psbt0_union a b c le : wf_parts0 a -> wf_parts0 b -> compatible0 a b -> psbt0_combine a b = Ok c ->
  (entry0 c (fst le) (snd le) <-> entry0 a (fst le) (snd le) \/ entry0 b (fst le) (snd le)).
Proof.
  intros (Ga & Ia & Oa) (Gb & Ib & Ob) (H1 & H2 & H3) H. apply psbt0_combine_ok in H as (_ & xs & Hx & ->). destruct le as [[|n|n] e]; cbn [entry0 fst snd].
  - apply union_pairs; auto using nodup_no_conflict, global0_pairs_nodup.
    + intros p. now apply combined0_from.
    + intros [He|He]; apply key_in in He; [now apply combined0_keys_left|now apply combined0_keys_right].
  - exact (zip_union0 input0_combine input0_pairs wf_input0 compatible_inputs0 input0_union _ _ Ia Ib H2 n e).
  - exact (zip_union0 output0_combine output0_pairs wf_output0 compatible_outputs0 output0_union _ _ Oa Ob H3 n e).
Qed.
Lemma plan_union0 s c : Forall wf_psbt0 (members s) -> ForallOrdPairs compatible0 (members s) -> carry_out psbt0_combine s = Ok c ->
  forall l e, entry0 c l e <-> Exists (fun p => entry0 p l e) (members s).
Proof.
  intros H1 H2 H.
  assert (H1' : Forall wf_parts0 (members s)) by (eapply Forall_impl; [|exact H1]; apply wf_psbt0_parts).
  destruct (plan_contains psbt0_combine wf_parts0 compatible0 compatible0_sym parts0_combine_wf
    (fun a b c x _ _ _ => psbt0_compat a b c x) (fun p le => entry0 p (fst le) (snd le)) psbt0_union s c (conj H1' H2) H) as (_ & _ & U).
  intros l e. exact (U (l, e)).
Qed.
End V0.

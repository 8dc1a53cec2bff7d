(** Concrete instances of [MsExt] and [MsNmExt] that satisfy [MsLaws] and [MsNmLaws], for the
    examples about v0.  They model no code of /repo: they stand for rust-miniscript, which is called
    at src/v0/miniscript/finalizer.rs:73-84, 212-295, 343-345 and 416-420.  In addition to the
    fragments of [toy_ms] there are or_d(pkh(A),pk(B)) and or_i(sha256(a),sha256(b)). *)
From Verif Require Import Base OMap Consensus Ext ExtInstance Serialize MapCodec Script V2Sign SignInstance V2Finalize SpecFinalize MsInstance
  V0Sign SchnorrInstance V0Finalize SpecFinalize0.
Local Open Scope N_scope.

Inductive toy_frag0 : Type := TOrPkh (h k : bytes) | TOrSha (a b : bytes) | TOther.

Definition or_pkh_script (h k : bytes) : bytes :=
  [x76; xa9; x14] ++ h ++ [x88; xac; x73; x64; x21] ++ k ++ [xac; x68].
Definition or_sha_script (a b : bytes) : bytes :=
  [x63; x82; x01; x20; x88; xa8; x20] ++ a ++ [x87; x67; x82; x01; x20; x88; xa8; x20] ++ b ++ [x87; x68].
(** The fragment of a script. *)
Definition toy_script0 (b : bytes) : toy_frag0 :=
  let h := firstn 20 (skipn 3 b) in
  let k := firstn 33 (skipn 28 b) in
  let a := firstn 32 (skipn 7 b) in
  let a' := firstn 32 (skipn 47 b) in
  if bytes_eqb b (or_pkh_script h k) then TOrPkh h k
  else if bytes_eqb b (or_sha_script a a') then TOrSha a a'
  else TOther.

(** A script and the keys that are known for hashes. *)
Definition toy_term : Type := bytes * list (bytes * pubkey).
Definition toy_known (m : toy_term) (s : satisfier) (h : bytes) : option pubkey :=
  match m_get bkey h (snd m) with Some k => Some k | None => sat_pkh_pk s h end.
Definition toy_satisfy0 (mall : bool) (m : toy_term) (s : satisfier) : option (list bytes) :=
  match toy_script0 (fst m) with
  | TOrPkh h k =>
      match sat_pkh_ecdsa s h with
      | Some (pk, sg) => Some [ser_esig sg; ser_pubkey (X := toy) pk]
      | None =>
          match sat_ecdsa s (PubKey true k), toy_known m s h with
          | Some sg, Some pk => Some [ser_esig sg; []; ser_pubkey (X := toy) pk]
          | _, _ => None
          end
      end
  | TOrSha a b =>
      match sat_sha256 s a, sat_sha256 s b with
      | Some v, Some _ => if mall then Some [v; [x01]] else None
      | Some v, None => Some [v; [x01]]
      | None, Some v => Some [v; []]
      | None, None => None
      end
  | TOther => toy_satisfy (fst m) s
  end.

Definition toy_interpret0 (spk ss : bytes) (w : witness) (csv cltv : N) (t : tx) (n : N) (us : list txout) : interp :=
  let value := match nth_error us (N.to_nat n) with Some u => to_value u | None => 0 end in
  let good (b : bool) := if b then IOk else ISatisfaction in
  let ws := last w [] in
  if is_p2tr spk then
    match w with
    | [sg] =>
        let ty := if blen sg =? 65 then toy_type sg else 0 in
        good (verify_schnorr (SchnorrExt := toy_schnorr) (skipn 2 spk)
          (taproot_digest (SchnorrExt := toy_schnorr) t n (PrevoutsAll us) None ty) (firstn 64 sg))
    | _ => ISatisfaction
    end
  else if is_p2wsh spk && bytes_eqb spk ([x00; x20] ++ sha256 (Ext := toy) ws) then
    let check k sg := toy_check k (segwit_digest (SignExt := toy_sign) t n ws value (toy_type sg)) sg in
    match toy_script0 ws, removelast w with
    | TOrPkh h _, [sg; pk] => good (bytes_eqb (hash160 (H := toy) pk) h && check pk sg)
    | TOrPkh h k, [sg; []; pk] => good (bytes_eqb (hash160 (H := toy) pk) h && check k sg)
    | TOrSha a _, [v; [x01]] => good (bytes_eqb (sha256 (Ext := toy) v) a)
    | TOrSha _ b, [v; []] => good (bytes_eqb (sha256 (Ext := toy) v) b)
    | TOther, _ => toy_interpret spk ss w csv cltv t n us
    | _, _ => ISatisfaction
    end
  else toy_interpret spk ss w csv cltv t n us.

Definition toy_ms0 : MsExt := {|
  ms := toy_term;
  ms_parse := fun c b =>
    match c, toy_script0 b with
    | (CSegwitv0 | CLegacy), (TOrPkh _ _ | TOrSha _ _) => Some (b, [])
    | _, _ => option_map (fun b => (b, [])) (ms_parse (MsExt := toy_ms) c b)
    end;
  ms_substitute := fun l m => (fst m, l);
  ms_substitute_tap := fun _ m => m;
  ms_encode := fst;
  ms_top_level := fun c m =>
    match c with
    | CBare => match toy_script0 (fst m), toy_script (fst m) with TOther, Some (TPk _) => true | _, _ => false end
    | _ => true
    end;
  ms_satisfy := fun _ => toy_satisfy0 true;
  ms_script_sig := fun l => concat (map push_slice l);
  ms_interpret := toy_interpret0
|}.
Definition toy_nm : MsNmExt toy_ms0 := {| ms_satisfy_nm := fun _ : msctx => (toy_satisfy0 false : @ms toy_ms0 -> satisfier -> option (list bytes)) |}.

#[global] Instance toy_ms0_laws : MsLaws toy toy_ms0.
Proof.
  constructor; cbn [toy_ms0 ms_parse ms_encode ms_substitute ms_substitute_tap ms_script_sig]; auto.
  - intros c b m H. assert (Q : option_map (fun b : bytes => (b, @nil (bytes * pubkey))) (@ms_parse toy_ms c b) = Some m -> fst m = b).
    { destruct (ms_parse c b) as [b'|] eqn:E; cbn [option_map]; [|discriminate]. intros [= <-]. exact (ms_parse_encode (MsLaws := toy_ms_laws) c b b' E). }
    destruct c, (toy_script0 b); auto; injection H as <-; reflexivity.
  - intros b H. exact (ms_script_sig_push (MsLaws := toy_ms_laws) b H).
  - intros l b H. exact (ms_script_sig_last (MsLaws := toy_ms_laws) l b H).
Qed.

Lemma push_slice_not_nil b : push_slice b <> [].
Proof. unfold push_slice. now destruct (blen b <? 76), (blen b <? 256), (blen b <? 65536). Qed.
#[global] Instance toy_nm_laws : MsNmLaws toy_ms0 toy_nm.
Proof.
  assert (B : forall m : toy_term, @ms_top_level toy_ms0 CBare m = true -> exists k, forall mall s,
    toy_satisfy0 mall m s = option_map (fun sg => [ser_esig sg]) (sat_ecdsa s (PubKey true k))).
  { intros [b l] H. cbn in H. unfold toy_satisfy0, toy_satisfy. cbn [fst]. destruct (toy_script0 b); try discriminate.
    destruct (toy_script b) as [[k| |]|]; try discriminate. now exists k. }
  constructor; cbn [toy_ms0 toy_nm ms_satisfy ms_satisfy_nm ms_script_sig].
  - intros c m s w H. unfold toy_satisfy0 in *. destruct (toy_script0 (fst m)); eauto.
    destruct (sat_sha256 s a), (sat_sha256 s b); try discriminate; eauto.
  - intros m s Ht (_ & _ & _ & He & _). destruct (B m Ht) as [k Hk]. rewrite Hk, He. reflexivity.
  - intros m s w Ht. destruct (B m Ht) as [k Hk]. rewrite Hk. destruct (sat_ecdsa s (PubKey true k)); [now intros [= <-]|discriminate].
  - intros m s w Ht. destruct (B m Ht) as [k Hk]. rewrite Hk. destruct (sat_ecdsa s (PubKey true k)); [now intros [= <-]|discriminate].
  - intros [|b l] H; [congruence|]. cbn [map concat]. intros E. apply app_eq_nil in E as [E _]. now apply push_slice_not_nil in E.
Qed.

(** A concrete instance of [MsExt] that satisfies [MsLaws].  It is used by the examples and shows
    that the laws are consistent.  It models no code of /repo: it stands for rust-miniscript, which
    is called at src/v2/miniscript/finalize.rs:123-357 and src/v2/miniscript/mod.rs:96-99, and knows
    the fragments pk(k), and_v(v:pk(k),after(n)) and multi_a(1,k,..) only. *)
From Verif Require Import Base OMap Consensus Ext ExtInstance Serialize MapCodec Script V2Sign SignInstance V2Finalize SpecFinalize.
Local Open Scope N_scope.

Inductive toy_frag : Type := TPk (k : bytes) | TAfter (k : bytes) (n : N) | TMulti (ks : list bytes).

(** The keys of multi_a after the first. *)
Fixpoint toy_keys (fuel : nat) (b : bytes) : option (list bytes) :=
  match fuel with
  | O => None
  | S f =>
      match b with
      | [x51; x9c] => Some []
      | x20 :: r =>
          match skipn 32 r with
          | xba :: r' => option_map (cons (firstn 32 r)) (toy_keys f r')
          | _ => None
          end
      | _ => None
      end
  end.

(** The fragment of a script. *)
Definition toy_script (b : bytes) : option toy_frag :=
  match b with
  | x21 :: r =>
      match skipn 33 r with
      | [xac] => Some (TPk (firstn 33 r))
      | [xad; op; xb1] => if (0x51 <=? b2n op) && (b2n op <=? 0x60) then Some (TAfter (firstn 33 r) (b2n op - 0x50)) else None
      | _ => None
      end
  | x20 :: r =>
      match skipn 32 r with
      | [xac] => Some (TMulti [firstn 32 r])
      | xac :: r' => option_map (fun l => TMulti (firstn 32 r :: l)) (toy_keys (length r') r')
      | _ => None
      end
  | _ => None
  end.

(** One signature for the first key that has one, empty items for the others. *)
Fixpoint toy_multi (look : bytes -> option bytes) (ks : list bytes) : option (list bytes) :=
  match ks with
  | [] => None
  | k :: ks' =>
      match look k with
      | Some s => Some (map (fun _ => []) ks' ++ [s])
      | None => option_map (fun l => l ++ [[]]) (toy_multi look ks')
      end
  end.

Definition toy_satisfy (b : bytes) (s : satisfier) : option (list bytes) :=
  let look k := option_map (fun sg => [ser_esig sg]) (sat_ecdsa s (PubKey true k)) in
  match toy_script b with
  | Some (TPk k) => look k
  | Some (TAfter k n) => if sat_after s n then look k else None
  | Some (TMulti ks) => toy_multi (fun k => option_map ser_tsig (sat_tap_leaf s k (tap_leaf_hash (Ext := toy) b 192))) ks
  | None => None
  end.

(** The signature with its type byte verifies. *)
Definition toy_check (k msg sg : bytes) : bool := verify_ecdsa (SignExt := toy_sign) k msg (removelast sg).
Definition toy_type (sg : bytes) : N := b2n (last sg x00).

Definition toy_interpret (spk ss : bytes) (w : witness) (csv cltv : N) (t : tx) (n : N) (us : list txout) : interp :=
  let value := match nth_error us (N.to_nat n) with Some u => to_value u | None => 0 end in
  let good (b : bool) := if b then IOk else ISatisfaction in
  if is_p2wpkh spk then
    match w with
    | [sg; k] =>
        if bytes_eqb spk ([x00; x14] ++ hash160 (H := toy) k) then
          good (toy_check k (segwit_digest (SignExt := toy_sign) t n (match p2wpkh_script_code spk with Some c => c | None => [] end) value (toy_type sg)) sg)
        else IConstructor
    | _ => IConstructor
    end
  else if is_p2wsh spk then
    match w with
    | [sg; ws] =>
        if bytes_eqb spk ([x00; x20] ++ sha256 (Ext := toy) ws) then
          let ok k := toy_check k (segwit_digest (SignExt := toy_sign) t n ws value (toy_type sg)) sg in
          match toy_script ws with
          | Some (TPk k) => good (ok k)
          | Some (TAfter k m) => good (ok k && (cltv <? LOCK_TIME_THRESHOLD) && (m <=? cltv))
          | _ => IConstructor
          end
        else IConstructor
    | _ => IConstructor
    end
  else if is_p2pkh spk then
    let sg := firstn 34 (tl ss) in
    let k := skipn 36 ss in
    if bytes_eqb ss (push_slice sg ++ push_slice k) && bytes_eqb spk (p2pkh_of (X := toy) (PubKey true k)) && is_empty w then
      good (toy_check k (legacy_digest (SignExt := toy_sign) t n spk (toy_type sg)) sg)
    else IConstructor
  else ISatisfaction.

Definition toy_ms : MsExt := {|
  ms := bytes;
  ms_parse := fun c b =>
    match c, toy_script b with
    | CTap, Some (TMulti _) => Some b
    | CTap, _ => None
    | _, Some (TPk _) => Some b
    | _, Some (TAfter _ _) => Some b
    | _, _ => None
    end;
  ms_substitute := fun _ b => b;
  ms_substitute_tap := fun _ b => b;
  ms_encode := fun b => b;
  ms_top_level := fun _ _ => true;
  ms_satisfy := fun _ => toy_satisfy;
  ms_script_sig := fun l => concat (map push_slice l);
  ms_interpret := toy_interpret
|}.

#[global] Instance toy_ms_laws : MsLaws toy toy_ms.
Proof.
  constructor; cbn [toy_ms ms_parse ms_encode ms_substitute ms_substitute_tap ms_script_sig]; auto.
  - intros c b m H. destruct c, (toy_script b) as [[]|]; congruence.
  - intros b H. cbn [map concat]. rewrite app_nil_r. unfold push_slice, blen.
    now replace (N.of_nat (length b) <? 76) with true by lia.
  - intros l b H. exists (concat (map push_slice l)). rewrite map_app, concat_app. cbn [map concat]. now rewrite app_nil_r.
Qed.

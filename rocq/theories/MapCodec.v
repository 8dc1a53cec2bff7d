(** Model of the pair insertion and extraction macros (src/macros.rs) and of the
    error types of the three maps. *)
From Verif Require Import Base OMap Consensus Ext Raw Serialize.
Local Open Scope N_scope.

(** src/v2/map/input.rs:1008-1017 [HashType] and src/v0/bitcoin/error.rs:16-22 [PsbtHash]. *)
Inductive hash_type : Type := HRipemd | HSha256 | HHash160 | HHash256.

(** Union of the [InsertPairError] types of src/v2/map/global.rs:615-648,
    src/v2/map/input.rs:915-930, src/v2/map/output.rs:395-406 and
    src/v0/bitcoin/error.rs.  Payloads of external error types are dropped. *)
Inductive ierr : Type :=
| IDuplicateKey (k : key)
| IInvalidKeyDataEmpty (k : key)
| IInvalidKeyDataNotEmpty (k : key)
| IDeser (e : serr)
| IConsensus (e : cerr)
| IValueWrongLength (got want : N)
| IKeyWrongLength (got want : N)
| IWrongVersion (n : N)
| IXpubInvalidFingerprint
| IXpubInvalidPath (n : N)
| IBip32
| IDuplicateXpub (k : keysource)
| IInvalidProprietaryKey
| IExcludedKey (t : byte)
| IHashPreimage (ht : hash_type) (preimage hash : bytes)
| IXPubKey0 (message : N)  (* v0 [XPubKey], by the number of its message in global.rs *)
| IVersion0 (message : N).  (* v0 [Version], likewise *)

Definition is_empty {A} (l : list A) : bool := match l with [] => true | _ => false end.

Section Macros.
Context `{X : Ext}.

(** src/macros.rs:52-63 [v2_impl_psbt_insert_pair], unkeyed field; [cur] is the field. *)
Definition ins_opt {A} (de : bytes -> res serr A) (p : pair) (cur : option A) : res ierr (option A) :=
  if is_empty (k_data (p_key p)) then
    match cur with
    | None => v <- map_err IDeser (de (p_value p)) ;; Ok (Some v)
    | Some _ => Err (IDuplicateKey (p_key p))
    end
  else Err (IInvalidKeyDataNotEmpty (p_key p)).

(** src/macros.rs:64-77 [v2_impl_psbt_insert_pair], keyed field; [m] is the map. *)
Definition ins_map {K V} (sk : K -> list N) (dek : bytes -> res serr K) (dev : bytes -> res serr V)
    (p : pair) (m : list (K * V)) : res ierr (list (K * V)) :=
  if is_empty (k_data (p_key p)) then Err (IInvalidKeyDataEmpty (p_key p))
  else
    k <- map_err IDeser (dek (k_data (p_key p))) ;;
    if m_mem sk k m then Err (IDuplicateKey (p_key p))
    else
      v <- map_err IDeser (dev (p_value p)) ;;
      Ok (m_put sk k v m).

(** src/v2/map/input.rs:791-822 and src/v0/bitcoin/map/input.rs:429-457
    [psbt_insert_hash_pair] for a hash function [h] with [n] byte results, called [ht]. *)
Definition ins_hash (n : N) (h : bytes -> bytes) (ht : hash_type) (p : pair) (m : list (bytes * bytes))
    : res ierr (list (bytes * bytes)) :=
  if is_empty (k_data (p_key p)) then Err (IInvalidKeyDataEmpty (p_key p))
  else
    k <- map_err IDeser (de_hash n (k_data (p_key p))) ;;
    if m_mem bkey k m then Err (IDuplicateKey (p_key p))
    else
      v <- map_err IDeser (de_vec (p_value p)) ;;
      if bytes_eqb (h v) k then Ok (m_put bkey k v m) else Err (IHashPreimage ht v k).

(** src/macros.rs:134-169 [v2_impl_psbt_insert_sp_pair]; [dev] parses the value and
    [want] is the length reported when it does not parse. *)
Definition ins_sp (dev : bytes -> option bytes) (want : N) (p : pair) (m : list (bytes * bytes))
    : res ierr (list (bytes * bytes)) :=
  if is_empty (k_data (p_key p)) then Err (IInvalidKeyDataEmpty (p_key p))
  else
    k <- ok_or (de_cpk (k_data (p_key p))) (IKeyWrongLength (blen (k_data (p_key p))) 33) ;;
    v <- ok_or (dev (p_value p)) (IValueWrongLength (blen (p_value p)) want) ;;
    if m_mem bkey k m then Err (IDuplicateKey (p_key p)) else Ok (m_put bkey k v m).

(** src/v2/map/input.rs:580-589, src/v2/map/output.rs:172-181: proprietary pairs;
    [err] converts the error of the key parser. *)
Definition ins_prop (err : serr -> ierr) (p : pair) (m : list (propkey * bytes))
    : res ierr (list (propkey * bytes)) :=
  k <- map_err err (propkey_try_from (p_key p)) ;;
  if m_mem sk_propkey k m then Err (IDuplicateKey (p_key p))
  else Ok (m_put sk_propkey k (p_value p) m).

(** src/v2/map/global.rs:330-337, src/v2/map/input.rs:591-597,
    src/v2/map/output.rs:226-232: unknown pairs. *)
Definition ins_unknown (p : pair) (m : list (key * bytes)) : res ierr (list (key * bytes)) :=
  if m_mem sk_key (p_key p) m then Err (IDuplicateKey (p_key p))
  else Ok (m_put sk_key (p_key p) (p_value p) m).

(** A mandatory field that holds a placeholder until it is read
    (src/v2/map/input.rs:431-444, src/v2/map/output.rs:142-155).  The key data is
    not looked at. *)
Definition ins_placeholder {A} (is_placeholder : A -> bool) (de : bytes -> res serr A)
    (p : pair) (cur : A) : res ierr A :=
  if negb (is_placeholder cur) then Err (IDuplicateKey (p_key p))
  else map_err IDeser (de (p_value p)).

(** src/macros.rs:82-92 [v2_impl_psbt_get_pair], [push]. *)
Definition opt_pairs {A} (t : byte) (ser : A -> bytes) (o : option A) : list pair :=
  match o with
  | Some v => [Pair (Key t []) (ser v)]
  | None => []
  end.

(** src/macros.rs:93-103 [v2_impl_psbt_get_pair], [push_map]; also
    src/v2/map/input.rs:759-776 and src/v2/map/global.rs:494-526. *)
Definition map_pairs {K V} (t : byte) (serk : K -> bytes) (serv : V -> bytes) (m : list (K * V))
    : list pair :=
  map (fun kv => Pair (Key t (serk (fst kv))) (serv (snd kv))) m.

(** src/v2/map/input.rs:778-780 and the same in the other maps. *)
Definition prop_pairs (m : list (propkey * bytes)) : list pair :=
  map (fun kv => Pair (propkey_to_key (fst kv)) (snd kv)) m.

(** src/v2/map/input.rs:782-784 and the same in the other maps. *)
Definition unknown_pairs (m : list (key * bytes)) : list pair :=
  map (fun kv => Pair (fst kv) (snd kv)) m.

(** src/macros.rs:7-13 [v2_combine_option], src/v0/bitcoin/macros.rs [combine!]. *)
Definition comb_opt {A} (self other : option A) : option A :=
  match self with
  | None => other
  | Some _ => self
  end.

(** src/macros.rs:16-20 [v2_combine_map]. *)
Definition comb_map {K V} (sk : K -> list N) (self other : list (K * V)) : list (K * V) :=
  m_extend sk self other.

End Macros.

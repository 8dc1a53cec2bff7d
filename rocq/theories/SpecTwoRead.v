(** Pairs that both versions read, and what it means to read them alike. *)
From Verif Require Import Base Raw Ext MapCodec V2Global V2Input V2Output V0Input V0Output V0Psbt SpecTwoVersions SpecTwoCombine.
Local Open Scope N_scope.

(** The pair is not of a key type that only version 2 has; the types of silent payments are such types
    only when they are built in. *)
Definition read_by_both `{C : Cfg} (only sp : list byte) (p : pair) : Prop :=
  ~ In (k_type (p_key p)) only /\ (feat_sp = true -> ~ In (k_type (p_key p)) sp).
(** The same fields, or the same error. *)
Definition read_alike {A B E} (view : A -> B) (r : res E A) (r0 : res E B) : Prop :=
  match r, r0 with
  | Ok a, Ok b => b = view a
  | Err e, Err e0 => e = e0
  | _, _ => False
  end.
(** What has been read so far of the global map. *)
Definition same_globals (d : gdec) (d0 : gdec0) : Prop :=
  gd0_xpub d0 = gd_xpubs d /\ gd0_proprietary d0 = gd_proprietaries d /\ gd0_unknown d0 = gd_unknowns d.

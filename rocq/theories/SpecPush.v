(** Reading a push from a script, as the interpreter of scripts does; independent of how scripts
    are built (src/v2/miniscript/finalize.rs:120-124, src/v0/miniscript/finalizer.rs:416-420). *)
From Verif Require Import Base.
Local Open Scope N_scope.

(** The first [k] bytes and the rest. *)
Definition split_at (k : N) (s : bytes) : option (bytes * bytes) :=
  if N.of_nat (length s) <? k then None else Some (firstn (N.to_nat k) s, skipn (N.to_nat k) s).
(** The bytes pushed by the first operation, and the rest of the script: opcodes up to 75 are
    lengths, 76, 77 and 78 are followed by a length of one, two and four bytes, lowest first. *)
Definition read_push (s : bytes) : option (bytes * bytes) :=
  match s with
  | [] => None
  | op :: r =>
      if b2n op <=? 75 then split_at (b2n op) r
      else if b2n op =? 76 then match r with a :: r => split_at (b2n a) r | _ => None end
      else if b2n op =? 77 then match r with a :: b :: r => split_at (b2n a + 256 * b2n b) r | _ => None end
      else if b2n op =? 78 then
        match r with
        | a :: b :: c :: d :: r => split_at (b2n a + 256 * b2n b + 65536 * b2n c + 16777216 * b2n d) r
        | _ => None
        end
      else None
  end.
(** The last operation of the script pushes [b]. *)
Definition ends_with_push (s b : bytes) : Prop := exists t u, s = t ++ u /\ read_push u = Some (b, []).

(** * Vocabulary for validators that use the cache. *)
From Verif Require Import GoBase CacheModel CacheSpec ReentModel.
Local Open Scope Z_scope.

Section ReentSpec.
  Context {D : Type}.
  (** The same call when the validator is an ordinary function. *)
  Definition plain_call (v : validator) (o : vop D) : op D :=
    match o with
    | VSet k d tc tr now => OSet k d tc tr now
    | VSetTTL k dur => OSetTTL k dur
    | VGet k t1 t2 t3 => OGet k v t1 t2 t3
    | VDel k => ODel k
    | VCount => OCount
    | VClean perc now => OClean perc now
    | VFlush => OFlush
    | VMax m => OMax m
    | VExpire e => OExpire e
    end.
  (** A validator that answers without calling the cache. *)
  Definition pure_validator (f : bytes -> Z -> bool) : vfun D := fun k t => Verdict (f k t).
  Definition legal (o : vop D) : Prop := match o with VClean p _ => -100 <= p <= 100 | _ => True end.
  (** Every call the program can make is legal. *)
  Inductive legal_prog : prog D -> Prop :=
  | lp_verdict b : legal_prog (Verdict b)
  | lp_call o next : legal o -> (forall r, legal_prog (next r)) -> legal_prog (Call o next).
  (** Every Get the program can make is for a key of a rank below [n]. *)
  Inductive gets_below (rank : bytes -> nat) (n : nat) : prog D -> Prop :=
  | gb_verdict b : gets_below rank n (Verdict b)
  | gb_get k t1 t2 t3 next : (rank k < n)%nat -> (forall r, gets_below rank n (next r)) -> gets_below rank n (Call (VGet k t1 t2 t3) next)
  | gb_other o next : (forall k t1 t2 t3, o <> VGet k t1 t2 t3) -> (forall r, gets_below rank n (next r)) -> gets_below rank n (Call o next).
  (** Programs that store nothing and do not call Flush. *)
  Definition no_store (o : vop D) : Prop := match o with VSet _ _ _ _ _ | VFlush => False | _ => True end.
  Inductive no_store_prog : prog D -> Prop :=
  | ns_verdict b : no_store_prog (Verdict b)
  | ns_call o next : no_store o -> (forall r, no_store_prog (next r)) -> no_store_prog (Call o next).
  (** What is in [c'] was in [c], with the same value and creation time. *)
  Definition left_of (c c' : cache D) : Prop := forall k x', c_items c' !! k = Some x' ->
    exists x, c_items c !! k = Some x /\ e_data x' = e_data x /\ e_ctime x' = e_ctime x.
End ReentSpec.

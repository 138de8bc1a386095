(** * How old the values are that Gets of several goroutines give (C132). *)
From Verif Require Import GoBase CacheModel CacheConc.
Local Open Scope Z_scope.

Section Age.
  Context {D : Type}.
  (** Anything [t] does. *)
  Definition acts_of (t : nat) (a : action D) : Prop := match a with AInv t' _ | AStep t' _ | ARet t' => t' = t | AMax _ | AExpire _ => False end.
  (** Begin or end of a call of [t]. *)
  Definition bounds (t : nat) (a : action D) : Prop := match a with AInv t' _ | ARet t' => t' = t | _ => False end.
  (** Some call Set(k, d) has taken its step, and its clock reading was [tc]. *)
  Definition stored (acts : list (action D)) (k : bytes) (d : D) (tc : Z) : Prop :=
    exists a t b i c, acts = a ++ AInv t (CSet k d) :: b ++ AStep t i :: c /\ Forall (fun x => ~ acts_of t x) b /\ in_t1 i = tc.
  (** Goroutine [t] is in the call [c], before which [a] happened and since which [b]. *)
  Definition running (acts : list (action D)) (t : nat) (c : call D) (a b : list (action D)) : Prop :=
    acts = a ++ AInv t c :: b /\ Forall (fun x => ~ bounds t x) b.
  (** A clock reading of [t] in [b]. *)
  Definition reading (t : nat) (b : list (action D)) (r : Z) : Prop := exists i, AStep t i ∈ b /\ in_t1 i = r.
  (** The clock at the steps of all goroutines, in their order. *)
  Definition readings_of (acts : list (action D)) : list Z := omap (fun a => match a with AStep _ i => Some (in_t1 i) | _ => None end) acts.
  (** Nobody assigns the field Expire (v2/xcache.go:31). *)
  Definition keeps_expire (a : action D) : Prop := match a with AExpire _ => False | _ => True end.
End Age.

(** * What happens between the begin of a call and the present (C113, C114): actions and states.

    The vocabulary of CacheConc.v: actions, labels, the states after them. *)
From Verif Require Import GoBase CacheModel CacheConc.
Local Open Scope Z_scope.

Section SettingsSpec.
  Context {D : Type} (dnil : D).

  (** The calls of the Validator, as its author sees them: thread, key, creation time, what it says (lines 137, 248). *)
  Definition question : Type := nat * bytes * Z * says.
  Definition asks (g : config D) (a : action D) : list question :=
    match a with
    | AStep t i =>
        match g_threads g t with
        | Some (CGet k (Some f), GVal x) | Some (CVerify (Some f), VVal k x _ _ _ _) =>
            match h_heap (g_shared g) !! x with Some e => [(t, k, e_ctime e, ruling i (f k (e_ctime e)))] | None => [] end
        | _ => []
        end
    | _ => []
    end.
  Fixpoint asked (g : config D) (acts : list (action D)) : list question :=
    match acts with
    | [] => []
    | a :: acts' => match cstep dnil g a with Some (g1, _) => asks g a ++ asked g1 acts' | None => [] end
    end.

  (** Thread [t] is inside the call [c]: since its begin the actions [b] were taken, with the trace [trb], and the
      validator was asked [qs].  All of it began in [g0]. *)
  Definition during (g0 : config D) (t : nat) (c : call D) (acts : list (action D)) (tr : list (label D * shared D))
      (b : list (action D)) (trb : list (label D * shared D)) (qs : list question) : Prop :=
    exists a tra s0 g1, acts = a ++ AInv t c :: b /\ tr = tra ++ (LInv t c, s0) :: trb /\ length b = length trb /\
      (forall c', AInv t c' ∉ b) /\ ARet t ∉ b /\
      exec dnil g0 (a ++ [AInv t c]) = Some (g1, tra ++ [(LInv t c, s0)]) /\ qs = asked g1 b.

  (** The entry [e] at [x] was the one of [k] at some moment of the call. *)
  Definition stored (t : nat) (trb : list (label D * shared D)) (k : bytes) (x : positive) (e : entry D) : Prop :=
    exists s, (LTau t, s) ∈ trb /\ h_items s !! k = Some x /\ h_heap s !! x = Some e.
  (** Thread [t] read the clock during the call, and it said [now]. *)
  Definition clock (t : nat) (b : list (action D)) (now : Z) : Prop := exists i, AStep t i ∈ b /\ in_t1 i = now.
  (** The field Expire, and the ttl of the entry at [x], had the value [d] at some moment of the call. *)
  Definition expire_was (t : nat) (trb : list (label D * shared D)) (d : Z) : Prop := exists s, (LTau t, s) ∈ trb /\ h_expire s = d.
  Definition ttl_was (t : nat) (trb : list (label D * shared D)) (x : positive) (d : Z) : Prop :=
    exists s e, (LTau t, s) ∈ trb /\ h_heap s !! x = Some e /\ e_ttl e = d.

  (** Why a Get may call an entry invalid.  The field is read twice: [d1] and [d2] may differ. *)
  Definition reason (t : nat) (k : bytes) (v : validator) (b : list (action D)) (trb : list (label D * shared D)) (qs : list question) : Prop :=
    exists x e, stored t trb k x e /\
      ((exists d1 d2 now, ttl_was t trb x d1 /\ d1 <> 0 /\ ttl_was t trb x d2 /\ clock t b now /\ e_ctime e + d2 < now) \/
       (v <> None /\ (t, k, e_ctime e, No) ∈ qs) \/
       (exists d1 d2 now, expire_was t trb d1 /\ d1 <> 0 /\ expire_was t trb d2 /\ clock t b now /\ e_ctime e + d2 < now)).
End SettingsSpec.

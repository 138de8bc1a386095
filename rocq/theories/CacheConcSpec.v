(** * Histories of concurrent cache calls, as the callers see them (C17, C76, C77).

    Only the actions (begin of a call, step, end of a call) and the answers are used here,
    not the state of the cache. *)
From Verif Require Import GoBase CacheModel CacheSpec CacheConc.
Local Open Scope Z_scope.

Section CacheConcSpec.
  Context {D : Type} (dnil : D).

  (** The calls in the order of their first steps.  The first step of a call lies between
      its begin and its end.  [f_pending t]: thread [t] has begun this call, not stepped yet. *)
  Record firsts_state := FState { f_pending : nat -> option (call D); f_calls : list (nat * call D) }.
  Definition first_step (st : firsts_state) (a : action D) : firsts_state :=
    match a with
    | AInv t c => FState (fun t' => if decide (t' = t) then Some c else f_pending st t') (f_calls st)
    | AStep t _ => match f_pending st t with
                   | Some c => FState (fun t' => if decide (t' = t) then None else f_pending st t') (f_calls st ++ [(t, c)])
                   | None => st
                   end
    | ARet _ | AMax _ | AExpire _ => st
    end.
  Definition firsts_from (acts : list (action D)) : firsts_state := fold_left first_step acts (FState (fun _ => None) []).
  Definition firsts (acts : list (action D)) : list (nat * call D) := f_calls (firsts_from acts).

  (** The value of a key after some calls, if they are the only ones and nothing expires: the
      last Set, unless the key was deleted or the cache flushed afterwards. *)
  Definition value_after (k : bytes) (m : option D) (c : call D) : option D :=
    match c with
    | CSet k' d => if decide (k' = k) then Some d else m
    | CDel k' => if decide (k' = k) then None else m
    | CFlush => None
    | _ => m
    end.
  Definition last_set (k : bytes) (l : list (nat * call D)) : option D := fold_left (fun m tc => value_after k m tc.2) l None.

  (** All of [acts] ends inside a call [c] of thread [t], and so does its beginning [pre]. *)
  Definition within (t : nat) (c : call D) (acts pre : list (action D)) : Prop :=
    exists a b post, pre = a ++ AInv t c :: b /\ acts = pre ++ post /\
      (forall c', AInv t c' ∉ b ++ post) /\ ARet t ∉ b ++ post.

  (** ** The atomic map *)
  Definition atomic (m : gmap bytes D) (c : call D) : gmap bytes D * result D :=
    match c with
    | CSet k d => (<[k := d]> m, RUnit)
    | CGet k _ => (m, RGet (match m !! k with Some d => d | None => dnil end) false)
    | CDel k => (delete k m, RUnit)
    | CCount => (m, RInt (Z.of_nat (size m)))
    | CFlush => (∅, RUnit)
    | _ => (m, RUnit)
    end.
  (** The calls that neither expire, nor evict, nor validate. *)
  Definition map_call (c : call D) : Prop :=
    match c with CSet _ _ | CDel _ | CCount | CFlush => True | CGet _ v => v = None | _ => False end.
  Definition map_action (a : action D) : Prop :=
    match a with AInv _ c => map_call c | AStep _ i => in_mid i = None | ARet _ => True | AMax _ | AExpire _ => False end.
  Fixpoint atomic_run (m : gmap bytes D) (l : list (nat * call D)) : gmap bytes D * list (nat * result D) :=
    match l with
    | [] => (m, [])
    | (t, c) :: l' => let '(m1, r) := atomic m c in let '(m2, rs) := atomic_run m1 l' in (m2, (t, r) :: rs)
    end.
  Definition answers_of (t : nat) (rs : list (nat * result D)) : list (result D) :=
    map snd (filter (fun tr => tr.1 = t) rs).
  (** The answers a thread has received. *)
  Definition received (t : nat) (tr : list (label D * shared D)) : list (result D) :=
    flat_map (fun ls => match ls.1 with LRet t' _ r => if decide (t' = t) then [r] else [] | _ => [] end) tr.

  (** ** Calls that do not overlap: thread, call, what the outside supplies to its steps *)
  Definition apart (l : list (nat * call D * list input)) : list (action D) :=
    flat_map (fun tci => AInv tci.1.1 tci.1.2 :: map (AStep tci.1.1) tci.2 ++ [ARet tci.1.1]) l.
  (** Nobody assigns Maxitems, Expire or Validator meanwhile, and the validator is a function of key and creation time. *)
  Definition untouched (l : list (nat * call D * list input)) : Prop := Forall (fun tci => Forall (fun i => in_mid i = None /\ in_says i = None) tci.2) l.
  Definition all_received (tr : list (label D * shared D)) : list (result D) :=
    flat_map (fun ls => match ls.1 with LRet _ _ r => [r] | _ => [] end) tr.
  (** The same call on the sequential cache; its clock readings are among those of the steps. *)
  Definition same_call (tci : nat * call D * list input) (o : op D) : Prop :=
    let '(_, c, ins) := tci in
    match c, o with
    | CSet k d, OSet k' d' tc tr now => k' = k /\ d' = d /\ exists i, i ∈ ins /\ tc = in_t1 i /\ tr = in_t2 i /\ now = in_now i
    | CSetTTL k dur, OSetTTL k' dur' => k' = k /\ dur' = dur
    | CGet k v, OGet k' v' t1 t2 t3 => k' = k /\ v' = v /\ t1 ∈ map in_t1 ins /\ t2 ∈ map in_t1 ins /\ t3 ∈ map in_t1 ins
    | CDel k, ODel k' => k' = k
    | CCount, OCount => True
    | CClean perc, OClean perc' now => perc' = perc /\ exists i, i ∈ ins /\ now = in_now i
    | CVerify v, OVerify v' now order => v' = v /\ iter_order order /\ exists i, i ∈ ins /\ now = in_now i
    | CFlush, OFlush => True
    | _, _ => False
    end.
End CacheConcSpec.

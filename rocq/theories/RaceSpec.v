(** * The Gets that other calls overtake: what a schedule says about them.

    Written over the actions of a schedule alone (CacheConc.v): which thread begins which
    call, which thread makes a step, which thread returns.  Nothing here looks at the cache. *)
From Verif Require Import GoBase CacheModel CacheConc.

Section RaceSpec.
  Context {D : Type}.

  (** The threads inside a Get that no other thread disturbed so far, and the number of Gets
      that were disturbed. *)
  Record gets := Gets { quiet : list nat; disturbed : nat }.
  Definition note (s : gets) (a : action D) : gets :=
    match a with
    | AInv t (CGet _ _) => Gets (t :: quiet s) (disturbed s)
    | AInv _ _ => s
    | AStep t _ => Gets (filter (.= t) (quiet s)) (disturbed s + length (filter (.≠ t) (quiet s)))
    | ARet t => Gets (filter (.≠ t) (quiet s)) (disturbed s)
    | AMax _ | AExpire _ => s
    end.
  (** How many Gets of the schedule have another thread make a step between their beginning
      and their end. *)
  Definition overtaken (acts : list (action D)) : nat := disturbed (fold_left note acts (Gets [] 0)).

  (** Calls other than Flush, with a percentage between -100 and 100; nobody assigns Maxitems or Expire. *)
  Definition calm (a : action D) : Prop :=
    match a with
    | AInv _ CFlush => False
    | AInv _ (CClean p) => (-100 <= p <= 100)%Z
    | AInv _ _ | ARet _ => True
    | AStep _ i => in_mid i = None
    | AMax _ | AExpire _ => False
    end.
  (** Calls of Set, Get and Del only. *)
  Definition simple (a : action D) : Prop :=
    match a with AInv _ (CSet _ _) | AInv _ (CGet _ _) | AInv _ (CDel _) => True | AInv _ _ => False | AStep _ i => in_mid i = None | ARet _ => True | AMax _ | AExpire _ => False end.
End RaceSpec.

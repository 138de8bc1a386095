(** * Several clients that load on demand through one cache (C131). *)
From Verif Require Import GoBase CacheModel CacheSpec CacheConc.

Section Crowd.
  Context {D : Type} (dnil : D) (is_nil : D -> bool) (load : bytes -> D).

  (** Begin and end of the calls of goroutine [t]. *)
  Definition of_thread (t : nat) (l : label D) : Prop :=
    match l with LInv t' _ | LRet t' _ _ => t' = t | LTau _ | LAssign => False end.
  (** Nothing but the value of the key is ever stored under it; whatever else is done with the cache does not matter. *)
  Definition stores_values (a : action D) : Prop := match a with AInv _ (CSet k d) => d = load k | _ => True end.

  (** The clients call Get and Set only, their validators accept, and nobody assigns the fields of the cache. *)
  Definition client_action (a : action D) : Prop :=
    match a with
    | AInv _ (CSet _ _) => True
    | AInv _ (CGet k v) => forall c, accepts v k c
    | AInv _ _ => False
    | AStep _ i => in_mid i = None /\ (in_says i = None \/ in_says i = Some Yes)
    | ARet _ => True
    | AMax _ | AExpire _ => False
    end.
  (** A client stores a value only if its last call was a Get of the key that answered nil. *)
  Definition on_demand (ls : list (label D)) : Prop := forall a t k d b, ls = a ++ LInv t (CSet k d) :: b ->
    d = load k /\ exists a1 v x e a2, a = a1 ++ LRet t (CGet k v) (RGet x e) :: a2 /\ is_nil x = true /\ Forall (fun l => ~ of_thread t l) a2.
  (** The clients that have loaded the key, as often as they have. *)
  Definition loaders (k : bytes) (ls : list (label D)) : list nat :=
    omap (fun l => match l with LInv t (CSet k' _) => if decide (k' = k) then Some t else None | _ => None end) ls.
End Crowd.

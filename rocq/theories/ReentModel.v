(** * Validators that use the cache themselves (v2/xcache.go).

    Get calls the Validator without holding the lock (lines 137-151), so the function may
    call the cache.  A validator is here a program: calls, whose answers it sees, and
    finally its verdict.  A Get made by the program calls the same Validator again, hence
    the fuel.  Verify too calls the Validator without the lock (line 248), while it walks
    through the map. *)
From Verif Require Import GoBase CacheModel.
Local Open Scope Z_scope.

Section Reent.
  Context {D : Type} (dnil : D).

  (** The calls of a program; readings of the clock are part of the calls as in CacheModel.v. *)
  Inductive vop :=
  | VSet (k : bytes) (d : D) (tc tr : Z) (now : bytes -> Z)
  | VSetTTL (k : bytes) (dur : Z)
  | VGet (k : bytes) (t1 t2 t3 : Z)
  | VDel (k : bytes)
  | VCount
  | VClean (perc : Z) (now : bytes -> Z)
  | VFlush
  | VMax (m : Z)
  | VExpire (e : Z).
  Inductive prog := Verdict (b : bool) | Call (o : vop) (next : result D -> prog).
  Definition vfun := bytes -> Z -> prog.

  (** One call; [get] is the Get of the cache with its Validator; [None]: out of fuel. *)
  Definition vstep (get : cache D -> bytes -> Z -> Z -> Z -> option (cache D * result D)) (c : cache D) (o : vop) : option (cache D * result D) :=
    match o with
    | VSet k d tc tr now => Some (step dnil c (OSet k d tc tr now))
    | VSetTTL k dur => Some (step dnil c (OSetTTL k dur))
    | VGet k t1 t2 t3 => get c k t1 t2 t3
    | VDel k => Some (step dnil c (ODel k))
    | VCount => Some (step dnil c OCount)
    | VClean perc now => Some (step dnil c (OClean perc now))
    | VFlush => Some (step dnil c OFlush)
    | VMax m => Some (step dnil c (OMax m))
    | VExpire e => Some (step dnil c (OExpire e))
    end.
  (** A program; [None] as verdict: a call panicked. *)
  Fixpoint vexec get (p : prog) (c : cache D) : option (cache D * option bool) :=
    match p with
    | Verdict b => Some (c, Some b)
    | Call o next =>
        match vstep get c o with
        | None => None
        | Some (c1, RPanic) => Some (c1, None)
        | Some (c1, r) => vexec get (next r) c1
        end
    end.

  (** v2/xcache.go:167-171: the entry gets its reading time, the key goes to the end of
      the recency list, also when the program has removed it.  The reading time is stored
      in the entry that was read, which may no longer be the one in the map; it is never
      read, so here it goes to the entry in the map, if there is one. *)
  Definition touch (c : cache D) (k : bytes) (t : Z) : cache D :=
    Cache (c_max c) (c_expire c)
      (match c_items c !! k with
       | Some y => <[k := Entry (e_ctime y) t (e_ttl y) (e_data y)]> (c_items c)
       | None => c_items c
       end) (remove_first k (c_pile c) ++ [k]).

  (** v2/xcache.go:121-175 [Get]: the entry is read first; its time to live, the
      validator, then Expire (read after the validator) decide. *)
  Fixpoint rget (n : nat) (v : option vfun) (c : cache D) (k : bytes) (t1 t2 t3 : Z) : option (cache D * result D) :=
    match n with
    | O => None
    | S n' =>
        match c_items c !! k with
        | None => Some (c, RGet dnil false)
        | Some x =>
            if negb (bool_decide (e_ttl x = 0)) && before_now (e_ctime x) (e_ttl x) t1 then Some (del c k, RGet dnil true)
            else
              match (match v with None => Some (c, Some true) | Some f => vexec (rget n' v) (f k (e_ctime x)) c end) with
              | None => None
              | Some (c1, None) => Some (c1, RPanic)
              | Some (c1, Some false) => Some (del c1 k, RGet dnil true)
              | Some (c1, Some true) =>
                  if negb (bool_decide (c_expire c1 = 0)) && before_now (e_ctime x) (c_expire c1) t2 then Some (del c1 k, RGet dnil true)
                  else Some (touch c1 k t3, RGet (e_data x) false)
              end
        end
    end.

  (** v2/xcache.go:242-264 [Verify].  [order] is the order in which the map gives its keys:
      a key that the program has removed before its turn is not given.  Not modelled: keys
      the program adds may be given or not (here: not, unless they are listed in the order); after
      a Flush by the program the loop goes on with the old map (here: it finds nothing; NestSpec.v, C115). *)
  Fixpoint rverify_loop (n : nat) (f : vfun) (order : list bytes) (c : cache D) (i : Z) : option (cache D * result D) :=
    match order with
    | [] => Some (c, RInt i)
    | k :: order' =>
        match c_items c !! k with
        | None => rverify_loop n f order' c i
        | Some x =>
            match vexec (rget n (Some f)) (f k (e_ctime x)) c with
            | None => None
            | Some (c1, None) => Some (c1, RPanic)
            | Some (c1, Some true) => rverify_loop n f order' c1 i
            | Some (c1, Some false) => rverify_loop n f order' (del c1 k) (i + 1)
            end
        end
    end.
  Definition rverify (n : nat) (v : option vfun) (c : cache D) (now : bytes -> Z) (order : gmap bytes (entry D) -> list bytes) : option (cache D * result D) :=
    let '(c1, r) := mclean c 0 now in
    match r with
    | RInt i => match v with Some f => rverify_loop n f (order (c_items c1)) c1 i | None => Some (c1, RInt i) end
    | _ => Some (c1, r)
    end.

  (** A history of calls by the user. *)
  Fixpoint rrun (n : nat) (v : option vfun) (c : cache D) (ops : list vop) : option (cache D * list (vop * result D)) :=
    match ops with
    | [] => Some (c, [])
    | o :: ops' =>
        match vstep (rget n v) c o with
        | None => None
        | Some (c1, r) => match rrun n v c1 ops' with None => None | Some (c2, tr) => Some (c2, (o, r) :: tr) end
        end
    end.
End Reent.
Arguments vop D : clear implicits.
Arguments prog D : clear implicits.
Arguments vfun D : clear implicits.

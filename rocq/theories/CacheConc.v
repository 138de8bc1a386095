(** * XCache under concurrency: threads interleaving at the granularity of critical sections.

    [Get] and [Verify] are not one critical section: between two sections any other
    thread may run.  Entries live in a heap because [Get] keeps a pointer to the entry
    after releasing the lock (v2/xcache.go:122).  Everything that Go takes from outside
    (clock readings, the address of a new entry, the next key of a map iteration) is an
    input of the step. *)
From Verif Require Import GoBase CacheModel.
Local Open Scope Z_scope.

Section CacheConc.
  Context {D : Type} (dnil : D).

  (** v2/xcache.go:23-39 [XCache], with the entries behind pointers. *)
  Record shared := Shared {
    h_max : Z; h_expire : Z;
    h_heap : gmap positive (entry D);
    h_items : gmap bytes positive;
    h_pile : list bytes;
    h_gone : list (gmap bytes positive)     (* the maps that Flush has replaced, line 271; nobody changes them any more *)
  }.

  (** The map made as number [n] (a [range] goes on with the map it began with, v2/xcache.go:247, 271). *)
  Definition map_no (s : shared) (n : nat) : gmap bytes positive :=
    if decide (n = length (h_gone s)) then h_items s else h_gone s !!! n.

  (** The exported methods, v2/xcache.go:64-273. *)
  Inductive call :=
  | CSet (k : bytes) (d : D)
  | CSetTTL (k : bytes) (dur : Z)
  | CGet (k : bytes) (v : validator)
  | CDel (k : bytes)
  | CCount
  | CClean (perc : Z)
  | CVerify (v : validator)
  | CFlush.

  (** Where a thread is inside a call; lines of v2/xcache.go. *)
  Inductive pc :=
  | Start                                   (* before the first critical section *)
  | GTtl (x : positive)                     (* line 124: about to test x.ttl != 0 *)
  | GTtl2 (x : positive)                    (* line 125: about to read x.ttl again and the clock *)
  | GVal (x : positive)                     (* line 136: about to call the validator *)
  | GExp (x : positive)                     (* line 152: about to test Expire != 0 *)
  | GExp2 (x : positive)                    (* line 153: about to read Expire again and the clock *)
  | GDel                                    (* lines 126/141/157: about to call Del *)
  | GRtime (x : positive)                   (* line 167: about to write x.rtime *)
  | GTouch (x : positive)                   (* lines 168-172 *)
  | VRange (i : Z)                          (* line 247: about to begin the iteration *)
  | VLoop (n : nat) (start visited : gmap bytes positive) (i : Z)  (* line 247: at the head of the iteration over map number n *)
  | VVal (k : bytes) (x : positive) (n : nat) (start visited : gmap bytes positive) (i : Z)  (* line 248: about to call the validator *)
  | VDel (k : bytes) (n : nat) (start visited : gmap bytes positive) (i : Z)  (* line 252: about to delete k *)
  | Exit (r : result D).                    (* about to return *)

  (** What the outside world supplies to a step: the address of a new entry, clock readings,
      the next key of the iteration (v2/xcache.go:68, 125, 153, 206, 247), and, if Maxitems or Expire
      are assigned by another goroutine during a critical section, what the section reads of them
      (lines 74, 204, 206: no lock protects these fields; [None]: they are not assigned meanwhile).
      [in_says]: what the Validator says when this step calls it (lines 137, 248).  [None]: what the
      function of the call says.  Otherwise the function has consulted something else (a file, the
      cache itself), or another goroutine has assigned the field Validator, which Verify reads again
      for every entry; [Crash]: the function panics, or the field is nil by now. *)
  Inductive says := Yes | No | Crash.
  Record readings := Readings { rd_max1 : Z; rd_max2 : Z; rd_exp1 : Z; rd_exp2 : bytes -> Z }.
  Record input := Input { in_loc : positive; in_t1 : Z; in_t2 : Z; in_now : bytes -> Z; in_key : option bytes; in_mid : option readings; in_says : option says }.
  Definition reads (s : shared) (i : input) : readings :=
    match in_mid i with Some r => r | None => Readings (h_max s) (h_max s) (h_expire s) (fun _ => h_expire s) end.

  Definition ruling (i : input) (b : bool) : says := match in_says i with Some w => w | None => if b then Yes else No end.

  (** [item.ctime] through the pointer, v2/xcache.go:206. *)
  Definition ctime_of (heap : gmap positive (entry D)) (x : positive) : Z :=
    match heap !! x with Some e => e_ctime e | None => 0 end.

  (** v2/xcache.go:198-227 [mClean] (as in CacheModel.v, through the pointers). *)
  Definition cclean (s : shared) (perc : Z) (now : bytes -> Z) (rd : readings) : shared * result D :=
    let items1 := if decide (rd_exp1 rd = 0) then h_items s
                  else filter (fun kx => before_now (ctime_of (h_heap s) kx.2) (rd_exp2 rd kx.1) (now kx.1) = false) (h_items s) in
    let num := quota (Z.of_nat (size items1)) perc in
    let '(panicked, items2, rest) := evict (Z.to_nat num) (h_pile s) items1 in
    if panicked then (Shared (h_max s) (h_expire s) (h_heap s) items2 (h_pile s) (h_gone s), RPanic)
    else (Shared (h_max s) (h_expire s) (h_heap s) items2 rest (h_gone s), RInt (Z.max 0 num)).

  (** v2/xcache.go:64-78 [Set]. *)
  Definition cset (s : shared) (k : bytes) (d : D) (i : input) : shared * result D :=
    let present := bool_decide (is_Some (h_items s !! k)) in
    let s1 := Shared (h_max s) (h_expire s)
                (<[in_loc i := Entry (in_t1 i) (in_t2 i) 0 d]> (h_heap s))
                (<[k := in_loc i]> (h_items s))
                ((if present then remove_first k (h_pile s) else h_pile s) ++ [k]) (h_gone s) in
    if bool_decide (rd_max1 (reads s i) > 0 /\ Z.of_nat (size (h_items s1)) >= rd_max2 (reads s i)) then
      let '(s2, r) := cclean s1 10 (in_now i) (reads s i) in
      match r with RPanic => (s2, RPanic) | _ => (s2, RUnit) end
    else (s1, RUnit).

  (** v2/xcache.go:178-184 [Del]. *)
  Definition cdel (s : shared) (k : bytes) : shared :=
    Shared (h_max s) (h_expire s) (h_heap s) (delete k (h_items s)) (remove_first k (h_pile s)) (h_gone s).

  (** One step of a thread that is executing [c] and stands at [p]; lines of v2/xcache.go. *)
  Definition tstep (s : shared) (c : call) (p : pc) (i : input) : option (shared * pc) :=
    match c, p with
    (* lines 65-77 *)
    | CSet k d, Start =>
        match h_heap s !! in_loc i with
        | Some _ => None                       (* allocation returns a new address *)
        | None => let '(s1, r) := cset s k d i in Some (s1, Exit r)
        end
    (* lines 85-90 *)
    | CSetTTL k dur, Start =>
        match h_items s !! k with
        | Some x => Some (Shared (h_max s) (h_expire s)
                           (alter (fun e => Entry (e_ctime e) (e_rtime e) dur (e_data e)) x (h_heap s))
                           (h_items s) (h_pile s) (h_gone s), Exit RUnit)
        | None => Some (s, Exit RUnit)
        end
    | CDel k, Start => Some (cdel s k, Exit RUnit)
    | CCount, Start => Some (s, Exit (RInt (Z.of_nat (size (h_items s)))))
    | CClean perc, Start => let '(s1, r) := cclean s perc (in_now i) (reads s i) in Some (s1, Exit r)
    | CFlush, Start => Some (Shared (h_max s) (h_expire s) (h_heap s) ∅ (h_pile s) (h_gone s ++ [h_items s]), Exit RUnit)
    (* lines 110-115 [mGet] *)
    | CGet k v, Start =>
        match h_items s !! k with
        | Some x => Some (s, GTtl x)
        | None => Some (s, Exit (RGet dnil false))
        end
    (* lines 124-134, without lock *)
    | CGet k v, GTtl x =>
        match h_heap s !! x with
        | Some e => Some (s, if decide (e_ttl e = 0) then GVal x else GTtl2 x)
        | None => None
        end
    | CGet k v, GTtl2 x =>
        match h_heap s !! x with
        | Some e => Some (s, if before_now (e_ctime e) (e_ttl e) (in_t1 i) then GDel else GVal x)
        | None => None
        end
    (* lines 136-150 *)
    | CGet k v, GVal x =>
        match h_heap s !! x, v with
        | Some e, Some f => Some (s, match ruling i (f k (e_ctime e)) with Yes => GExp x | No => GDel | Crash => Exit RPanic end)
        | Some e, None => Some (s, GExp x)
        | None, _ => None
        end
    (* lines 152-166 *)
    | CGet k v, GExp x =>
        match h_heap s !! x with
        | Some e => Some (s, if decide (h_expire s = 0) then GRtime x else GExp2 x)
        | None => None
        end
    | CGet k v, GExp2 x =>
        match h_heap s !! x with
        | Some e => Some (s, if before_now (e_ctime e) (h_expire s) (in_t1 i) then GDel else GRtime x)
        | None => None
        end
    | CGet k v, GDel => Some (cdel s k, Exit (RGet dnil true))
    (* line 167, without lock *)
    | CGet k v, GRtime x =>
        Some (Shared (h_max s) (h_expire s)
                (alter (fun e => Entry (e_ctime e) (in_t1 i) (e_ttl e) (e_data e)) x (h_heap s))
                (h_items s) (h_pile s) (h_gone s), GTouch x)
    (* lines 168-172 *)
    | CGet k v, GTouch x =>
        match h_heap s !! x with
        | Some e => Some (Shared (h_max s) (h_expire s) (h_heap s) (h_items s) (remove_first k (h_pile s) ++ [k]) (h_gone s),
                          Exit (RGet (e_data e) false))
        | None => None
        end
    (* lines 242-264 [Verify].  The iteration over the map, which other threads may be modifying:
       the next entry is one of the map not visited yet; the loop may end when every entry of
       the start that is still in place was visited.  (An entry whose pointer changed counts as a
       new one, which may be visited or not; Go allows less than that.)  When another thread calls
       Flush, the iteration goes on over the old map, while Del works on the new one. *)
    | CVerify v, Start =>
        let '(s1, r) := cclean s 0 (in_now i) (reads s i) in
        match v, r with
        | Some _, RInt n => Some (s1, VRange n)
        | _, _ => Some (s1, Exit r)
        end
    | CVerify _, VRange n => Some (s, VLoop (length (h_gone s)) (h_items s) ∅ n)
    | CVerify _, VLoop m start visited n =>
        match in_key i with
        | Some k =>
            match map_no s m !! k with
            | Some x => if decide (visited !! k = Some x) then None else Some (s, VVal k x m start (<[k := x]> visited) n)
            | None => None
            end
        | None =>
            if decide (map_Forall (fun k x => map_no s m !! k = Some x -> visited !! k = Some x) start)
            then Some (s, Exit (RInt n)) else None
        end
    | CVerify v, VVal k x m start visited n =>
        match v, h_heap s !! x with
        | Some f, Some e => Some (s, match ruling i (f k (e_ctime e)) with
                                    | Yes => VLoop m start visited n | No => VDel k m start visited n | Crash => Exit RPanic end)
        | _, _ => None
        end
    | CVerify _, VDel k m start visited n => Some (cdel s k, VLoop m start visited (n + 1))
    | _, _ => None
    end.

  (** Threads: any number of them; a thread not in a call may start any call. *)
  Definition tstate := option (call * pc).
  Record config := Config { g_shared : shared; g_threads : nat -> tstate }.

  Definition upd (f : nat -> tstate) (t : nat) (x : tstate) : nat -> tstate :=
    fun t' => if decide (t' = t) then x else f t'.

  (** [AMax], [AExpire]: some goroutine assigns the exported field (v2/xcache.go:27, 31). *)
  Inductive action := AInv (t : nat) (c : call) | AStep (t : nat) (i : input) | ARet (t : nat) | AMax (mx : Z) | AExpire (ex : Z).
  Inductive label := LInv (t : nat) (c : call) | LTau (t : nat) | LRet (t : nat) (c : call) (r : result D) | LAssign.

  Definition cstep (g : config) (a : action) : option (config * label) :=
    match a with
    | AInv t c => match g_threads g t with
                  | None => Some (Config (g_shared g) (upd (g_threads g) t (Some (c, Start))), LInv t c)
                  | Some _ => None
                  end
    | AStep t i => match g_threads g t with
                   | Some (c, p) => match tstep (g_shared g) c p i with
                                    | Some (s', p') => Some (Config s' (upd (g_threads g) t (Some (c, p'))), LTau t)
                                    | None => None
                                    end
                   | None => None
                   end
    | ARet t => match g_threads g t with
                | Some (c, Exit r) => Some (Config (g_shared g) (upd (g_threads g) t None), LRet t c r)
                | _ => None
                end
    | AMax mx => let s := g_shared g in
                 Some (Config (Shared mx (h_expire s) (h_heap s) (h_items s) (h_pile s) (h_gone s)) (g_threads g), LAssign)
    | AExpire ex => let s := g_shared g in
                    Some (Config (Shared (h_max s) ex (h_heap s) (h_items s) (h_pile s) (h_gone s)) (g_threads g), LAssign)
    end.

  (** A schedule and the trace it produces: each label with the state after it. *)
  Fixpoint exec (g : config) (acts : list action) : option (config * list (label * shared)) :=
    match acts with
    | [] => Some (g, [])
    | a :: acts' =>
        match cstep g a with
        | None => None
        | Some (g1, l) =>
            match exec g1 acts' with
            | None => None
            | Some (g2, tr) => Some (g2, (l, g_shared g1) :: tr)
            end
        end
    end.

  Definition cinit (mx ex : Z) : config := Config (Shared mx ex ∅ ∅ [] []) (fun _ => None).
End CacheConc.
Arguments shared D : clear implicits.
Arguments call D : clear implicits.
Arguments pc D : clear implicits.
Arguments config D : clear implicits.
Arguments action D : clear implicits.
Arguments label D : clear implicits.

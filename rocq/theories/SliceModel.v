(** * Slices with their arrays.

    Elsewhere a Go slice is a list.  Here it is what it is in Go: a view of an array in memory that other slices may share.
    [grow] is the growth policy of append, an input: any capacity that is large enough. *)
From Verif Require Import GoBase DatasetModel DatasetSpec.

(** The arrays of the program. *)
Notation memory A := (gmap loc (list A)).

Section Slice.
  Context {A : Type} (zero : A) (grow : nat -> nat -> nat).

  (** The slice starts at index [s_off] of the array [s_arr]; an empty capacity needs no array (nil, []T{}). *)
  Record slice := Slice { s_arr : loc; s_off : nat; s_len : nat; s_cap : nat }.
  Definition nil_slice : slice := Slice 1 0 0 0.
  Definition cells (m : memory A) (s : slice) : list A := drop (s_off s) (default [] (m !! s_arr s)).
  (** What the slice shows. *)
  Definition view (m : memory A) (s : slice) : list A := take (s_len s) (cells m s).
  (** Writing [xs] from index [i] of the array on. *)
  Definition overwrite (l : list A) (i : nat) (xs : list A) : list A := take i l ++ xs ++ drop (i + length xs) l.
  (** A new array of the given capacity that starts with [xs]; the slice shows [xs]. *)
  Definition make (m : memory A) (xs : list A) (cap : nat) : memory A * slice :=
    let a := fresh (dom m) in (<[a := xs ++ replicate (cap - length xs) zero]> m, Slice a 0 (length xs) cap).
  (** append(s, xs...): in place if the capacity suffices, else in a new array. *)
  Definition append (m : memory A) (s : slice) (xs : list A) : memory A * slice :=
    if decide (s_len s + length xs <= s_cap s)
    then (match m !! s_arr s with Some l => <[s_arr s := overwrite l (s_off s + s_len s) xs]> m | None => m end,
          Slice (s_arr s) (s_off s) (s_len s + length xs) (s_cap s))
    else make m (view m s ++ xs) (Nat.max (s_len s + length xs) (grow (s_cap s) (s_len s + length xs))).
  (** s[i:] and s[:i], for i up to the length. *)
  Definition from (s : slice) (i : nat) : option slice :=
    if decide (i <= s_len s) then Some (Slice (s_arr s) (s_off s + i) (s_len s - i) (s_cap s - i)) else None.
  Definition upto (s : slice) (i : nat) : option slice :=
    if decide (i <= s_len s) then Some (Slice (s_arr s) (s_off s) i (s_cap s)) else None.
  (** s[i]; out of range: panic. *)
  Definition at_index (m : memory A) (s : slice) (i : Z) : option A :=
    if decide (0 <= i < Z.of_nat (s_len s))%Z then cells m s !! Z.to_nat i else None.
End Slice.
Arguments slice : clear implicits.

(** ** Collections: v2/xdatasetcollection.go:42-76 and 154-160 (v2/xdatasetcollectionts.go:34-80, 158-165 have the same statements).
    A collection is a variable that holds a slice; elements are XDatasetDef, nil included. *)
Section Collections.
  Variable grow : nat -> nat -> nat.
  Notation mem := (memory (option loc)).
  Definition mcoll_op (m : mem) (s : slice) (o : deque_op) : outcome (mem * slice * deque_answer) :=
    match o with
    | DUnshift d => let '(m1, t) := make None m [d] 1 in                                        (* lines 42-44 *)
                    let '(m2, t2) := append None grow m1 t (view m1 s) in Ok (m2, t2, DUnit)
    | DShift => match at_index m s 0 with                                                       (* lines 47-51 *)
                | Some d => match from s 1 with Some t => Ok (m, t, DElement d) | None => Panic end
                | None => Panic
                end
    | DPush d => let '(m1, t) := append None grow m s [d] in Ok (m1, t, DUnit)                  (* lines 54-56 *)
    | DPop => match at_index m s (Z.of_nat (s_len s) - 1) with                                  (* lines 59-63 *)
              | Some d => match upto s (s_len s - 1) with Some t => Ok (m, t, DElement d) | None => Panic end
              | None => Panic
              end
    | DCount => Ok (m, s, DNumber (Z.of_nat (s_len s)))                                         (* lines 66-68 *)
    | DGet i => if decide (i < 0 \/ Z.of_nat (s_len s) <= i)%Z then Ok (m, s, DNotFound)         (* lines 71-76 *)
                else match at_index m s i with Some d => Ok (m, s, DFound d) | None => Panic end
    end.
  (** Clone: appends the clones [ds] of the elements one by one to an empty slice. *)
  Fixpoint mclone (m : mem) (t : slice) (ds : list (option loc)) : mem * slice :=
    match ds with
    | [] => (m, t)
    | d :: ds' => let '(m1, t1) := append None grow m t [d] in mclone m1 t1 ds'
    end.

  (** A program over any number of collections.  [MClone i j ds]: j is the clone of i, [ds] the clones of the elements.
      [MCopy i j]: the assignment *j = *i, which Go allows since the type is a slice. *)
  Inductive mop := MNew (j : nat) | MDo (i : nat) (o : deque_op) | MClone (i j : nat) (ds : list (option loc)) | MCopy (i j : nat).
  Definition mstep (m : mem) (vars : gmap nat slice) (o : mop) : outcome (mem * gmap nat slice * option deque_answer) :=
    match o with
    | MNew j => Ok (m, <[j := nil_slice]> vars, None)
    | MDo i o => match vars !! i with
                 | Some s => r <-! mcoll_op m s o ; let '(m1, t, a) := r in Ok (m1, <[i := t]> vars, Some a)
                 | None => Panic
                 end
    | MClone i j ds => match vars !! i with
                       | Some s => if decide (length ds = s_len s) then let '(m1, t) := mclone m nil_slice ds in Ok (m1, <[j := t]> vars, None) else Panic
                       | None => Panic
                       end
    | MCopy i j => match vars !! i with Some s => Ok (m, <[j := s]> vars, None) | None => Panic end
    end.
  Fixpoint mrun (m : mem) (vars : gmap nat slice) (os : list mop) : outcome (mem * gmap nat slice * list (option deque_answer)) :=
    match os with
    | [] => Ok (m, vars, [])
    | o :: os' => r <-! mstep m vars o ; let '(m1, v1, a) := r in r2 <-! mrun m1 v1 os' ; let '(m2, v2, rs) := r2 in Ok (m2, v2, a :: rs)
    end.
End Collections.

(** ** The recency list of the cache: v2/xcache.go:73, 95-107, 171, 222-225. *)
Section Pile.
  Variable grow : nat -> nat -> nat.
  Notation mem := (memory bytes).
  Fixpoint index_of (k : bytes) (l : list bytes) : option nat :=
    match l with [] => None | x :: l' => if decide (x = k) then Some 0 else S <$> index_of k l' end.
  (** append(c.pile[:i], c.pile[i+1:]...) moves the tail inside the array. *)
  Definition pile_remove (m : mem) (s : slice) (k : bytes) : option (mem * slice) :=
    match index_of k (view m s) with
    | None => Some (m, s)
    | Some i => if decide (i = s_len s - 1) then t ← upto s i; Some (m, t)
                else t ← upto s i; u ← from s (i + 1); Some (append [] grow m t (view m u))
    end.
  (** The keys c.pile[0..n-1] and the slice c.pile[n:]; [None]: index out of range. *)
  Fixpoint pile_keys (m : mem) (s : slice) (n : nat) : option (list bytes) :=
    match n with O => Some [] | S n' => ks ← pile_keys m s n'; k ← at_index m s (Z.of_nat n'); Some (ks ++ [k]) end.
  Inductive pop := PAppend (k : bytes) | PRemove (k : bytes) | PEvict (n : nat).
  Definition pstep (m : mem) (s : slice) (o : pop) : option (mem * slice * list bytes) :=
    match o with
    | PAppend k => let '(m1, t) := append [] grow m s [k] in Some (m1, t, [])
    | PRemove k => r ← pile_remove m s k; Some (r, [])
    | PEvict n => ks ← pile_keys m s n; t ← from s n; Some (m, t, ks)
    end.
  Fixpoint prun (m : mem) (s : slice) (os : list pop) : option (mem * slice * list (list bytes)) :=
    match os with
    | [] => Some (m, s, [])
    | o :: os' => r ← pstep m s o; let '(m1, t, a) := r in r2 ← prun m1 t os'; let '(m2, t2, rs) := r2 in Some (m2, t2, a :: rs)
    end.
End Pile.

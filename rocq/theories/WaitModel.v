(** * Goroutines that wait for the locks of nested thread safe data (C124).

    The methods of v2/xdataset.go, v2/xdatasetts.go, v2/xdatasetcollection.go and
    v2/xdatasetcollectionts.go once more ([dget], [dset], [show], … in DatasetModel.v), now with the operations on the locks of
    all objects that a call goes through.  The mutex of an object is named by the object.  sync.RWMutex: a
    reader waits as long as a writer holds the lock or has asked for it; a writer asks first and then waits
    until nobody holds the lock.  (When a writer leaves, package sync lets the readers that wait go before the next writer; here the next
    writer may also go first, so there are more waits here than in the program.)  An unlock of a lock
    that is not held is not a step. *)
From Verif Require Import GoBase GoStrings LangModel DatasetModel SnapModel TellModel.
Local Open Scope Z_scope.

(** What a goroutine does next: [Take false]/[Leave false] is RLock/RUnlock, [Take true]/[Leave true] is Lock/Unlock. *)
Inductive prog (A : Type) : Type :=
| Done (a : A)
| Crash                                    (* a panic *)
| Short                                    (* out of fuel *)
| Take (w : bool) (l : loc) (k : prog A)
| Leave (w : bool) (l : loc) (k : prog A)
| Look (w : heap -> heap) (k : heap -> prog A).   (* one access *)
Arguments Done {A} a. Arguments Crash {A}. Arguments Short {A}.
Arguments Take {A} w l k. Arguments Leave {A} w l k. Arguments Look {A} w k.
Fixpoint pbind {A C} (m : prog A) (f : A -> prog C) : prog C :=
  match m with
  | Done a => f a | Crash => Crash | Short => Short
  | Take w l k => Take w l (pbind k f) | Leave w l k => Leave w l (pbind k f)
  | Look w k => Look w (fun h => pbind (k h) f)
  end.
Notation "x <~~ e ; f" := (pbind e (fun x => f)) (at level 100, e at level 99, f at level 200, right associativity).
Definition given {A} (r : outcome A) : prog A := match r with Ok a => Done a | Panic => Crash | NoFuel => Short end.
Definition see {A} (f : heap -> prog A) : prog A := Look (fun h => h) f.
(** [mutex.RLock(); defer mutex.RUnlock()]: the lock is left after a panic as well. *)
Fixpoint deferred {A} (l : loc) (m : prog A) : prog A :=
  match m with
  | Done a => Leave false l (Done a) | Crash => Leave false l Crash | Short => Short
  | Take w x k => Take w x (deferred l k) | Leave w x k => Leave w x (deferred l k)
  | Look w k => Look w (fun h => deferred l (k h))
  end.
Definition reading {A} (l : loc) (m : prog A) : prog A := Take false l (deferred l m).
(** [mutex.Lock(); …; mutex.Unlock()], without defer; the same with RLock. *)
Definition holding {A} (w : bool) (l : loc) (m : prog A) : prog A := Take w l (a <~~ m; Leave w l (Done a)).
(** fmt recovers from a panic. *)
Fixpoint caught {A} (m : prog A) (a : A) : prog A :=
  match m with
  | Done b => Done b | Crash => Done a | Short => Short
  | Take w l k => Take w l (caught k a) | Leave w l k => Leave w l (caught k a)
  | Look w k => Look w (fun h => caught (k h) a)
  end.
(** A goroutine that is alone: the locks do not matter. *)
Fixpoint solo {A} (m : prog A) (h : heap) : outcome (heap * A) :=
  match m with
  | Done a => Ok (h, a) | Crash => Panic | Short => NoFuel
  | Take _ _ k | Leave _ _ k => solo k h
  | Look w k => solo (k h) (w h)
  end.

(** Several goroutines: the locks that each one holds (the last one first), whether it has asked for the
    write lock it is about to take, and the rest of its program. *)
Record routine (A : Type) := Routine { held : list (bool * loc); asked : bool; code : prog A }.
Arguments Routine {A} held asked code. Arguments held {A} r. Arguments asked {A} r. Arguments code {A} r.
Definition fresh {A} (p : prog A) : routine A := Routine [] false p.
(** Somebody holds the lock for reading or writing; somebody holds it for writing; somebody has asked to write. *)
Definition taken {A} (l : loc) (gs : list (routine A)) : Prop := exists g w, g ∈ gs /\ (w, l) ∈ held g.
Definition barred {A} (l : loc) (gs : list (routine A)) : Prop :=
  exists g, g ∈ gs /\ ((true, l) ∈ held g \/ (asked g = true /\ exists k, code g = Take true l k)).
Fixpoint drop_one (x : bool * loc) (l : list (bool * loc)) : list (bool * loc) :=
  match l with [] => [] | y :: l' => if decide (x = y) then l' else y :: drop_one x l' end.
(** Goroutine number [i] makes a step. *)
Inductive moves {A} (i : nat) : heap * list (routine A) -> heap * list (routine A) -> Prop :=
| moves_read h gs hs b l k : gs !! i = Some (Routine hs b (Take false l k)) -> ~ barred l gs ->
    moves i (h, gs) (h, <[i := Routine ((false, l) :: hs) b k]> gs)
| moves_ask h gs hs l k : gs !! i = Some (Routine hs false (Take true l k)) ->
    moves i (h, gs) (h, <[i := Routine hs true (Take true l k)]> gs)
| moves_write h gs hs l k : gs !! i = Some (Routine hs true (Take true l k)) -> ~ taken l gs ->
    moves i (h, gs) (h, <[i := Routine ((true, l) :: hs) false k]> gs)
| moves_leave h gs hs b w l k : gs !! i = Some (Routine hs b (Leave w l k)) -> (w, l) ∈ hs ->
    moves i (h, gs) (h, <[i := Routine (drop_one (w, l) hs) b k]> gs)
| moves_look h gs hs b w k : gs !! i = Some (Routine hs b (Look w k)) ->
    moves i (h, gs) (w h, <[i := Routine hs b (k h)]> gs).

(** ** Collections *)
(** Count and Get hold the read lock (deferred): v2/xdatasetcollectionts.go:66-80; v2/xdatasetcollection.go:66-76 has none. *)
Definition w_inspect {A} (c : loc) (f : heap -> outcome A) : prog A :=
  see (fun h => match h !! c with
                | Some (OCollTS _) => reading c (see (fun h => given (f h)))
                | _ => given (f h)
                end).
Definition w_count (c : loc) : prog Z := w_inspect c (fun h => ccount h c).
Definition w_elem (c : loc) (i : Z) : prog (option (option loc)) := w_inspect c (fun h => cget h c i).
(** Unshift, Shift, Push, Pop hold the write lock, a panic leaves it locked: v2/xdatasetcollectionts.go:34-63; v2/xdatasetcollection.go:42-63 has none. *)
Definition change {A} (f : heap -> outcome (heap * A)) : prog A :=
  Look (fun h => match f h with Ok (h1, _) => h1 | _ => h end) (fun h => given (r <-! f h; Ok r.2)).
Definition w_modify {A} (c : loc) (f : heap -> outcome (heap * A)) : prog A :=
  see (fun h => match h !! c with
                | Some (OCollTS _) => holding true c (change f)
                | _ => change f
                end).
Definition w_unshift (c : loc) (d : option loc) : prog unit := w_modify c (fun h => h1 <-! cunshift h c d; Ok (h1, tt)).
Definition w_push (c : loc) (d : option loc) : prog unit := w_modify c (fun h => h1 <-! cpush h c d; Ok (h1, tt)).
Definition w_shift (c : loc) : prog (option loc) := w_modify c (fun h => cshift h c).
Definition w_pop (c : loc) : prog (option loc) := w_modify c (fun h => cpop h c).

(** ** Datasets *)
(** Get: v2/xdataset.go:72-102; v2/xdatasetts.go:45-49 holds the read lock during the call of the inner
    Get (deferred), whatever that one goes through. *)
Fixpoint w_get (n : nat) (l : loc) (key : bytes) : prog (option value) :=
  match n with
  | O => Short
  | S n' => see (fun h =>
      match h !! l with
      | Some (OTs (Some d)) => reading l (w_get n' d key)
      | Some (OTs None) => reading l Crash
      | Some (ODs m) =>
          let literal := Done (m !! key) in
          match split_on gt key with
          | x0 :: x1 :: rest =>
              match m !! x0 with
              | None => Done None
              | Some subset =>
                  match as_dataset h subset with
                  | Some ds => w_get n' ds (join [gt] (x1 :: rest))
                  | None =>
                      match as_collection h subset with
                      | Some dsc =>
                          match atoi x1 with
                          | None => Done None
                          | Some entry =>
                              e <~~ w_elem dsc entry;
                              match e with
                              | Some (Some ds) =>
                                  match rest with
                                  | [] => Done (Some (VRef ds))
                                  | _ => w_get n' ds (join [gt] rest)
                                  end
                              | _ => Done None
                              end
                          end
                      | None => literal
                      end
                  end
              end
          | _ => literal
          end
      | _ => Crash
      end)
  end.
(** The other methods that read: v2/xdatasetts.go:52-137 holds the read lock during the same method of its
    data (deferred), down to the XDataset. *)
Fixpoint w_under {A} (n : nat) (l : loc) (f : loc -> prog A) : prog A :=
  match n with
  | O => Short
  | S n' => see (fun h =>
      match h !! l with
      | Some (ODs _) => f l
      | Some (OTs (Some d)) => reading l (w_under n' d f)
      | Some (OTs None) => reading l Crash
      | _ => Crash
      end)
  end.
(** GetBool, GetInt, GetFloat, GetTime, the collections of them, GetDataset and GetCollection: v2/xdataset.go:105-122, 136-375; the type switches read the kind of an object. *)
Definition w_typed {A} (n : nat) (l : loc) (key : bytes) (conv : heap -> value -> option A) (zero : A) : prog (A * bool) :=
  w_under n l (fun l' =>
    r <~~ w_get n l' key;
    see (fun h => Done (match r with
                        | Some v => match conv h v with Some a => (a, true) | None => (zero, false) end
                        | None => (zero, false)
                        end))).
(** Set: v2/xdataset.go:67-69, v2/xdatasetts.go:38-42.  Del: v2/xdataset.go:378-380, v2/xdatasetts.go:140-144.  The write lock is left without defer. *)
Fixpoint w_alter (n : nat) (l : loc) (f : gmap bytes value -> gmap bytes value) : prog unit :=
  match n with
  | O => Short
  | S n' => see (fun h =>
      match h !! l with
      | Some (ODs _) => change (fun h => match h !! l with Some (ODs m) => Ok (<[l := ODs (f m)]> h, tt) | _ => Panic end)
      | Some (OTs (Some d)) => holding true l (w_alter n' d f)
      | Some (OTs None) => holding true l Crash
      | _ => Crash
      end)
  end.
Definition w_set (n : nat) (l : loc) (key : bytes) (v : value) : prog unit := w_alter n l (fun m => <[key := v]> m).
Definition w_del (n : nat) (l : loc) (key : bytes) : prog unit := w_alter n l (fun m => delete key m).
(** GetData: v2/xdatasetcollection.go:79-87; v2/xdatasetcollectionts.go:83-97 takes the read lock for the length and for each element
    (without defer: an index out of range leaves it locked), not during the Get of the element. *)
Definition w_brief {A} (c : loc) (f : heap -> outcome A) : prog A :=
  see (fun h => match h !! c with
                | Some (OCollTS _) => holding false c (see (fun h => given (f h)))
                | _ => given (f h)
                end).
Fixpoint w_search (n : nat) (c : loc) (i : nat) (key : bytes) : prog (option value) :=
  match i with
  | O => Done None
  | S i' =>
      e <~~ w_brief c (fun h => match elements h c with
                                | Some xs => match xs !! i' with Some e => Ok e | None => Panic end
                                | None => Panic
                                end);
      match e with
      | None => Crash
      | Some d => r <~~ w_get n d key; match r with Some v => Done (Some v) | None => w_search n c i' key end
      end
  end.
Definition w_data (n : nat) (c : loc) (key : bytes) : prog (option value) :=
  i <~~ w_brief c (fun h => match elements h c with Some xs => Ok (length xs) | None => Panic end);
  w_search n c i key.

(** ** Clone (v2/xdataset.go:383-397, v2/xdatasetcollection.go:154-160): v2/xdatasetts.go:147-153 holds the read lock during the inner Clone, without
    defer; v2/xdatasetcollectionts.go:159-165 takes none.  As in SnapModel.v the copy is given by value. *)
Section Clone.
  Context (ord : heap -> gmap bytes value -> list (bytes * value)).
  Section Body.
    Context (copy_obj : loc -> prog tree).
    Fixpoint w_entries (l : list (bytes * value)) : prog (list (bytes * tree)) :=
      match l with
      | [] => Done []
      | (k, v) :: l' =>
          t <~~ match v with VRef r => copy_obj r | _ => Done (Leaf v) end;
          es <~~ w_entries l'; Done ((k, t) :: es)
      end.
    Fixpoint w_elements (xs : list (option loc)) : prog (list tree) :=
      match xs with
      | [] => Done []
      | None :: _ => Crash
      | Some r :: xs' => t <~~ copy_obj r; ts <~~ w_elements xs'; Done (t :: ts)
      end.
  End Body.
  Fixpoint w_clone (n : nat) (l : loc) : prog tree :=
    match n with
    | O => Short
    | S n' => see (fun h =>
        match h !! l with
        | Some (ODs m) => es <~~ w_entries (w_clone n') (ord h m); Done (Node es)
        | Some (OTs (Some d)) => holding false l (t <~~ w_clone n' d; Done (Wrap t))
        | Some (OTs None) => holding false l Crash
        | Some (OColl xs) => ts <~~ w_elements (w_clone n') xs; Done (Coll false ts)
        | Some (OCollTS xs) => ts <~~ w_elements (w_clone n') xs; Done (Coll true ts)
        | None => Crash
        end)
    end.
End Clone.

(** ** String and GoString (v2/xdataset.go:47-64, v2/xdatasetcollection.go:28-39): v2/xdatasetts.go:24-35 holds the read lock during the inner call (deferred),
    v2/xdatasetcollectionts.go:17-31 during the iteration. *)
Section Show.
  Context (F : golib) (ord : heap -> gmap bytes value -> list (bytes * value)).
  Definition w_value (show : bool -> loc -> prog bytes) (go : bool) (v : value) : prog bytes :=
    match v with
    | VRef l => caught (show go l) (panic_text go)
    | _ => Done (if go then go_text F v else plain_text F v)
    end.
  Fixpoint w_words (f : value -> prog bytes) (l : list (bytes * value)) : prog (list bytes) :=
    match l with
    | [] => Done []
    | (k, v) :: l' => t <~~ f v; ts <~~ w_words f l'; Done ((k ++ B ":" ++ t) :: ts)
    end.
  Fixpoint w_items (f : value -> prog bytes) (i : Z) (xs : list (option loc)) : prog bytes :=
    match xs with
    | [] => Done []
    | x :: xs' =>
        t <~~ f (match x with Some l => VRef l | None => VNil end);
        ts <~~ w_items f (i + 1) xs';
        Done (itoa i ++ B ":" ++ t ++ B " " ++ ts)
    end.
  Fixpoint w_show (n : nat) (go : bool) (l : loc) : prog bytes :=
    match n with
    | O => Short
    | S n' => see (fun h =>
        match h !! l with
        | Some (ODs m) =>
            sdata <~~ w_words (w_value (w_show n') go) (ord h m);
            Done (B (if go then "#xcore.XDataset{" else "xcore.XDataset{") ++ join (B " ") (sort_strings sdata) ++ B "}")
        | Some (OTs (Some d)) => reading l (w_show n' go d)
        | Some (OTs None) => reading l Crash
        | Some (OColl xs) => t <~~ w_items (w_value (w_show n') false) 0 xs; Done (B "XDatasetCollection[" ++ t ++ B "]")
        | Some (OCollTS _) => holding false l (see (fun h =>       (* the kind of an object does not change *)
            t <~~ w_items (w_value (w_show n') false) 0 (default [] (elements h l)); Done (B "XDatasetCollectionTS[" ++ t ++ B "]")))
        | None => Crash
        end)
    end.
  (** GetString: v2/xdataset.go:125-133, v2/xdatasetts.go:66-70: the text of the value is made under the lock. *)
  Definition w_string (n : nat) (l : loc) (key : bytes) : prog (bytes * bool) :=
    w_under n l (fun l' =>
      r <~~ w_get n l' key;
      match r with
      | Some VNil => Done ([], true)
      | Some v => t <~~ w_value (w_show n) false v; Done (t, true)
      | None => Done ([], false)
      end).
End Show.

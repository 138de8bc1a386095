(** * Clone at the same time as other goroutines (C122): Clone as a sequence of looks at the data.

    v2/xdataset.go:383-397, v2/xdatasetts.go:147-153, v2/xdatasetcollection.go:154-160 and
    v2/xdatasetcollectionts.go:159-165 once more ([clone] in DatasetModel.v), divided into the accesses
    between which other goroutines may change the data: one for every object that is copied.  The
    new objects are seen by nobody before Clone returns, they are given by value as a [tree].
    The map of an XDataset is read in one access: XDatasetTS.Clone holds its read lock during the whole
    iteration (v2/xdatasetts.go:149-151), a plain XDataset must not be written during it.  The list of a collection is
    read in one access: "range" takes the slice once (v2/xdatasetcollectionts.go:161, without the
    lock); that a Pop and a Push meanwhile overwrite a cell of the array is not modelled.  That writers wait for the
    read locks is left out: there are more interleavings here than the program has; the schedules of the examples are
    possible with the locks. *)
From Verif Require Import GoBase DatasetModel ParModel.

Inductive tree : Type :=
| Leaf (v : value)                          (* anything that is not cloneable *)
| Node (es : list (bytes * tree))           (* an XDataset *)
| Wrap (t : tree)                           (* an XDatasetTS *)
| Coll (ts : bool) (xs : list tree).        (* an XDatasetCollection, an XDatasetCollectionTS *)

Section Copy.
  Context (ord : heap -> gmap bytes value -> list (bytes * value)).
  Section Body.
    Context (copy_obj : loc -> act tree).
    (** v2/xdataset.go:385-395. *)
    Fixpoint p_entries (l : list (bytes * value)) : act (list (bytes * tree)) :=
      match l with
      | [] => Ret []
      | (k, v) :: l' =>
          t <~ match v with VRef r => copy_obj r | _ => Ret (Leaf v) end;
          es <~ p_entries l'; Ret ((k, t) :: es)
      end.
    (** v2/xdatasetcollection.go:156-158, v2/xdatasetcollectionts.go:161-163. *)
    Fixpoint p_elements (xs : list (option loc)) : act (list tree) :=
      match xs with
      | [] => Ret []
      | None :: _ => Fail
      | Some r :: xs' => t <~ copy_obj r; ts <~ p_elements xs'; Ret (t :: ts)
      end.
  End Body.
  Fixpoint p_copy (n : nat) (l : loc) : act tree :=
    match n with
    | O => Out
    | S n' => Act (fun h => h) (fun h =>
        match h !! l with
        | Some (ODs m) => es <~ p_entries (p_copy n') (ord h m); Ret (Node es)
        | Some (OTs (Some d)) => t <~ p_copy n' d; Ret (Wrap t)
        | Some (OTs None) => Fail
        | Some (OColl xs) => ts <~ p_elements (p_copy n') xs; Ret (Coll false ts)
        | Some (OCollTS xs) => ts <~ p_elements (p_copy n') xs; Ret (Coll true ts)
        | None => Fail
        end)
    end.
End Copy.

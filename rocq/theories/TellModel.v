(** * String and GoString at the same time as other goroutines (C123): printing as a sequence of looks at the data.

    v2/xdataset.go:47-64, v2/xdatasetts.go:24-35, v2/xdatasetcollection.go:28-39 and
    v2/xdatasetcollectionts.go:17-31 once more ([show] in DatasetModel.v), divided as Clone is in SnapModel.v: one
    access for every object that is printed (under the read lock of the wrapper, or of the
    collection, which is held during the whole iteration).  That writers wait for these locks is left out: there are
    more interleavings here than the program has; the schedules of the examples are possible with the locks. *)
From Verif Require Import GoBase GoStrings LangModel DatasetModel ParModel.
Local Open Scope Z_scope.

(** fmt recovers from a panic in String and GoString and goes on. *)
Fixpoint acatch {A} (m : act A) (a : A) : act A :=
  match m with Ret b => Ret b | Fail => Ret a | Out => Out | Act w k => Act w (fun h => acatch (k h) a) end.

Section Tell.
  Context (F : golib) (ord : heap -> gmap bytes value -> list (bytes * value)).
  (** v2/xdataset.go:50, 60, v2/xdatasetcollection.go:30. *)
  Definition p_value (show : bool -> loc -> act bytes) (go : bool) (v : value) : act bytes :=
    match v with
    | VRef l => acatch (show go l) (panic_text go)
    | _ => Ret (if go then go_text F v else plain_text F v)
    end.
  (** v2/xdataset.go:49-51, 59-61. *)
  Fixpoint p_words (f : value -> act bytes) (l : list (bytes * value)) : act (list bytes) :=
    match l with
    | [] => Ret []
    | (k, v) :: l' => t <~ f v; ts <~ p_words f l'; Ret ((k ++ B ":" ++ t) :: ts)
    end.
  (** v2/xdatasetcollection.go:29-31, v2/xdatasetcollectionts.go:20-24. *)
  Fixpoint p_items (f : value -> act bytes) (i : Z) (xs : list (option loc)) : act bytes :=
    match xs with
    | [] => Ret []
    | x :: xs' =>
        t <~ f (match x with Some l => VRef l | None => VNil end);
        ts <~ p_items f (i + 1) xs';
        Ret (itoa i ++ B ":" ++ t ++ B " " ++ ts)
    end.
  Fixpoint p_show (n : nat) (go : bool) (l : loc) : act bytes :=
    match n with
    | O => Out
    | S n' => Act (fun h => h) (fun h =>
        match h !! l with
        | Some (ODs m) =>
            sdata <~ p_words (p_value (p_show n') go) (ord h m);
            Ret (B (if go then "#xcore.XDataset{" else "xcore.XDataset{") ++ join (B " ") (sort_strings sdata) ++ B "}")
        | Some (OTs (Some d)) => p_show n' go d
        | Some (OTs None) => Fail
        | Some (OColl xs) => t <~ p_items (p_value (p_show n') false) 0 xs; Ret (B "XDatasetCollection[" ++ t ++ B "]")
        | Some (OCollTS xs) => t <~ p_items (p_value (p_show n') false) 0 xs; Ret (B "XDatasetCollectionTS[" ++ t ++ B "]")
        | None => Fail
        end)
    end.
End Tell.

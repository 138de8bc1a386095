(** * Slices stored in datasets, with their backing arrays.

    DatasetModel.v represents a stored []string, []int… by its elements.  Here a stored slice is
    an opaque value [VOther k] whose header (array, offset, length) is [sl k]; arrays are mutable
    and shared by all headers that point to them.  Assigning an interface value copies the
    header only: v2/xdataset.go:68 (Set), 386 (Clone: [clonedval := val]), 98, 323 (Get and
    GetStringCollection return the stored header). *)
From Verif Require Import GoBase GoStrings DatasetModel.

Record slice := Slice { s_array : loc; s_off : nat; s_len : nat }.
Notation arrays := (gmap loc (list bytes)).
(** [s[i]] and [s[i] = x]; [None]: out of range, Go panics. *)
Definition read (A : arrays) (s : slice) (i : nat) : option bytes :=
  if bool_decide (i < s_len s)%nat then a ← A !! s_array s; a !! (s_off s + i)%nat else None.
Definition write (A : arrays) (s : slice) (i : nat) (x : bytes) : option arrays :=
  match read A s i with
  | Some _ => Some (alter (fun a => <[(s_off s + i)%nat := x]> a) (s_array s) A)
  | None => None
  end.
(** GetStringCollection (v2/xdataset.go:321-329) of a dataset: the stored header, if it is one. *)
Definition get_slice (sl : nat -> option slice) (n : nat) (h : heap) (l : loc) (key : bytes) : outcome (option slice) :=
  r <-! dget n h l key;
  Ok (match r with Some (VOther k) => sl k | _ => None end).

(** * What GetString answers for values that are not datasets (C99), described without the printing functions. *)
From Verif Require Import GoBase DatasetModel DatasetSpec TextSpec.
Local Open Scope Z_scope.

(** Decimal notation: a minus sign for negative numbers, then digits, the first one not 0 unless it is the only one. *)
Definition figure (d : Z) : ascii := nth (Z.to_nat d) (B "0123456789") "?"%char.
Definition worth (ds : list Z) : Z := foldl (fun a d => 10 * a + d) 0 ds.
Definition decimal (z : Z) (t : bytes) : Prop :=
  exists ds, ds <> [] /\ Forall (fun d => 0 <= d <= 9) ds /\ (head ds = Some 0 -> ds = [0]) /\ worth ds = Z.abs z /\
    t = B (if decide (z < 0) then "-" else "") ++ map figure ds.
Definition truth (b : bool) (t : bytes) : Prop := t = B (if b then "true" else "false").

(** Slices: the elements in square brackets, a space between two of them. *)
Definition bracketed {A} (one : A -> bytes -> Prop) (l : list A) (t : bytes) : Prop :=
  exists ws body, Forall2 one l ws /\ spaced_out ws body /\ t = B "[" ++ body ++ B "]".

(** The values whose text does not depend on the formatting of floats, times and other types. *)
Inductive reads_as : value -> bytes -> Prop :=
| ra_nil : reads_as VNil []
| ra_bool b t : truth b t -> reads_as (VBool b) t
| ra_int k z t : decimal z t -> reads_as (VInt k z) t
| ra_str s : reads_as (VStr s) s
| ra_strs l t : bracketed eq l t -> reads_as (VStrs l) t
| ra_bools l t : bracketed truth l t -> reads_as (VBools l) t
| ra_ints l t : bracketed decimal l t -> reads_as (VInts l) t.
Definition readable_kind (v : value) : Prop :=
  match v with VNil | VBool _ | VInt _ _ | VStr _ | VStrs _ | VBools _ | VInts _ => True | _ => False end.

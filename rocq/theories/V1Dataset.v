(** * The typed reads of the root package (xdataset.go, version 1) that differ from v2.

    Compared function by function (comments and blank lines apart), xdataset.go:65-583 has the
    text of v2/xdataset.go and v2/xdatasetcollection.go except for the four functions below and
    for GetDataString (515-524, the same statements written differently).  [XDatasetTS],
    [XDatasetCollectionTS], [NewXDataset] and [NewXDatasetCollection] do not exist. *)
From Coq Require Import SpecFloat.
From Verif Require Import GoBase GoStrings DatasetModel.
Local Open Scope Z_scope.

(** xdataset.go:156-205 GetBool: [None] is (false,false). *)
Definition bool_of1 (v : value) : option bool :=
  match v with
  | VBool b => Some b
  | VInt _ z => Some (bool_decide (z <> 0))
  | VFloat32 f | VFloat64 f => Some (negb (is_zero_float f))
  | VNil => None
  | _ => Some true
  end.
(** xdataset.go:210-259 GetInt. *)
Definition int_of1 (F : golib) (v : value) : option Z :=
  match v with
  | VBool b => Some (if b then 1 else 0)
  | VInt _ z => Some (wrap64 z)
  | VFloat32 f | VFloat64 f => Some (int_of_float F f)
  | _ => None
  end.
(** xdataset.go:262-311 GetFloat. *)
Definition float_of1 (v : value) : option spec_float :=
  match v with
  | VBool b => Some (float_of_int (if b then 1 else 0))
  | VInt _ z => Some (float_of_int z)
  | VFloat32 f => Some (widen f)
  | VFloat64 f => Some f
  | _ => None
  end.
Definition get_bool1 n h l key := typed n h l key bool_of1 false.
Definition get_int1 (F : golib) n h l key := typed n h l key (int_of1 F) 0.
Definition get_float1 n h l key := typed n h l key float_of1 (S754_zero false).
(** xdataset.go:567-574 XDatasetCollection.GetCollection: the type assertion is not checked. *)
Definition cget_collection1 (n : nat) (h : heap) (c : loc) (key : bytes) : outcome (option loc) :=
  r <-! cget_data n h c key;
  match r with
  | None => Ok None
  | Some v => match as_collection h v with Some x => Ok (Some x) | None => Panic end
  end.

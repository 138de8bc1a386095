(** * Property theorems about values shared by clones (C74). *)
From Verif Require Import GoBase GoStrings DatasetModel DatasetSpec DatasetProofs2 DatasetProofs3 AliasModel AliasProofs.

(** ** C74 *)
(** What is not a dataset or a collection is not copied: the clone holds the same value. *)
Theorem C74_same_value : forall ord n h l h' l' key v, order_ok ord -> complete h l -> clone ord n h l = Ok (h', l') ->
  (forall d, v <> VRef d) -> gets h l key (Some v) <-> gets h' l' key (Some v).
Proof. exact clone_same_value. Qed.
Print Assumptions C74_same_value.
(** Writing into a slice read from the clone writes into the slice of the original. *)
Theorem C74_slices_shared_refuted : forall sl ord n h l h' l' key s, order_ok ord -> complete h l -> clone ord n h l = Ok (h', l') ->
  returns (fun n => get_slice sl n h' l' key) (Some s) ->
  returns (fun n => get_slice sl n h' l key) (Some s) /\
  forall A i x A', write A s i x = Some A' -> read A' s i = Some x.
Proof. exact clone_shares_slices. Qed.
Print Assumptions C74_slices_shared_refuted.
(** A dataset with a sub-dataset that holds the slice of two strings. *)
Definition C74_heap : heap := <[1%positive := ODs (<[B "sub" := VRef 2]> ∅)]> (<[2%positive := ODs (<[B "s" := VOther 7]> ∅)]> ∅).
Definition C74_slices (k : nat) : option slice := if bool_decide (k = 7)%nat then Some (Slice 1 1 2) else None.
Definition C74_arrays : arrays := {[1%positive := [B "x"; B "a"; B "b"; B "y"]]}.
Example C74_case :
  match clone (fun _ m => map_to_list m) 9 C74_heap 1 with
  | Ok (h', l') =>
      l' <> 1%positive /\ get_slice C74_slices 9 h' l' (B "sub>s") = Ok (Some (Slice 1 1 2)) /\
      get_slice C74_slices 9 h' 1 (B "sub>s") = Ok (Some (Slice 1 1 2)) /\
      match write C74_arrays (Slice 1 1 2) 1 (B "new") with
      | Some A' => map (read A' (Slice 1 1 2)) [0; 1; 2]%nat = [Some (B "a"); Some (B "new"); None]
      | None => False
      end
  | _ => False
  end.
Proof. vm_compute. split_and!; done. Qed.

(** * Property theorems about the text of plain values (C99). *)
From Verif Require Import GoBase GoStrings LangModel DatasetModel DatasetSpec DatasetProofs2 DatasetProofs3 TextSpec PlainSpec PlainProofs.
Local Open Scope Z_scope.

(** ** C99 *)
Theorem C99_get_string : forall F ord h l key v t, gets h l key (Some v) -> readable_kind v ->
  returns (fun n => get_string F ord n h l key) (t, true) <-> reads_as v t.
Proof. exact get_string_plain. Qed.
Print Assumptions C99_get_string.
(** The same text inside the print of a dataset (C79); only nil differs, printed as <nil>. *)
Theorem C99_inside_a_print : forall F h v t, readable_kind v -> v <> VNil -> prints_value F h false v t <-> reads_as v t.
Proof. exact prints_plain. Qed.
Print Assumptions C99_inside_a_print.
(** Every integer has exactly one numeral, and no numeral belongs to two integers. *)
Theorem C99_numeral : forall z t, decimal z t <-> t = itoa z.
Proof. exact decimal_unique. Qed.
Print Assumptions C99_numeral.
Theorem C99_integers_apart : forall z z' t, decimal z t -> decimal z' t -> z = z'.
Proof. exact decimal_inj. Qed.
Print Assumptions C99_integers_apart.
Theorem C99_slices_apart : forall l l' t, reads_as (VInts l) t -> reads_as (VInts l') t -> l = l'.
Proof. exact ints_apart. Qed.
Print Assumptions C99_slices_apart.
(** Slices of strings, and values of different types, may have the same text. *)
Theorem C99_apart_refuted : reads_as (VStrs [B "a"; B "b"]) (B "[a b]") /\ reads_as (VStrs [B "a b"]) (B "[a b]") /\
  reads_as (VInt KInt 7) (B "7") /\ reads_as (VStr (B "7")) (B "7") /\ reads_as (VBool true) (B "true") /\ reads_as (VStr (B "true")) (B "true").
Proof. exact reads_as_ambiguous. Qed.
Print Assumptions C99_apart_refuted.

Definition C99_heap : heap := <[1%positive := ODs (<[B "b" := VBools [true; false]]> (<[B "i" := VInts [-12; 0; 305]]> (<[B "n" := VInt KUint8 200]> (<[B "z" := VNil]> ∅))))]> ∅.
Definition C99_lib : golib := GoLib (fun _ => []) (fun _ => []) (fun _ => []) (fun _ => []) (fun _ => []) (fun _ => 0).
Example C99_case : (fun k => get_string C99_lib (fun _ m => map_to_list m) 3 C99_heap 1 (B k)) <$> ["b"; "i"; "n"; "z"]%string =
  [Ok (B "[true false]", true); Ok (B "[-12 0 305]", true); Ok (B "200", true); Ok (B "", true)].
Proof. by vm_compute. Qed.
Example C99_case_decimal : decimal (-120) (B "-120") /\ ~ decimal 7 (B "07") /\ decimal 0 (B "0") /\ ~ decimal 0 (B "-0").
Proof. rewrite !decimal_unique. by vm_compute. Qed.

(** * Property theorems about printing languages and datasets (C78, C79). *)
From Verif Require Import GoBase GoStrings LangModel DatasetModel DatasetSpec DatasetProofs2 DatasetProofs3 TextSpec TextProofs.
Local Open Scope Z_scope.

(** ** C78 *)
Theorem C78_text : forall quote (m : table) order, order_of m order ->
  braced (B "xcore.XLanguage{") (map (fun kv => kv.1 ++ B ":" ++ kv.2) (map_to_list m)) (lstring order) /\
  braced (B "#xcore.XLanguage{") (map (fun kv => kv.1 ++ B ":" ++ quote kv.2) (map_to_list m)) (lgostring quote order).
Proof. exact lang_string_text. Qed.
Print Assumptions C78_text.
(** The description leaves no choice. *)
Theorem C78_one_text : forall start words t1 t2, braced start words t1 -> braced start words t2 -> t1 = t2.
Proof. exact braced_unique. Qed.
Print Assumptions C78_one_text.
Theorem C78_tells_apart : forall (m1 m2 : table) o1 o2, order_of m1 o1 -> order_of m2 o2 -> readable m1 -> readable m2 ->
  lstring o1 = lstring o2 -> m1 = m2.
Proof. exact lstring_inj. Qed.
Print Assumptions C78_tells_apart.
(** In general the text does not determine the table. *)
Theorem C78_tells_apart_refuted : exists (m1 m2 : table) o1 o2, order_of m1 o1 /\ order_of m2 o2 /\ m1 <> m2 /\ lstring o1 = lstring o2.
Proof. exact lstring_ambiguous. Qed.
Print Assumptions C78_tells_apart_refuted.
Example C78_case :
  let m : table := <[B "b" := B "2"]> (<[B "a" := B "1"]> (<[B "B" := B ""]> ∅)) in
  order_of m [(B "b", B "2"); (B "B", B ""); (B "a", B "1")] /\ readable m /\
  lstring [(B "b", B "2"); (B "B", B ""); (B "a", B "1")] = B "xcore.XLanguage{B: a:1 b:2}".
Proof.
  split; [unfold order_of; by apply (bool_decide_unpack _); vm_compute|]. split; [|by vm_compute].
  intros k v H. repeat (apply lookup_insert_Some in H as [[<- <-]|[_ H]]; [by split_and!; apply (bool_decide_unpack _); vm_compute|]).
  by rewrite lookup_empty in H.
Qed.

(** ** C79 *)
Theorem C79_text : forall F ord, order_ok ord -> forall h go l t, whole h l ->
  returns (fun n => show F ord n h go l) t <-> prints F h go l t.
Proof. exact show_text. Qed.
Print Assumptions C79_text.
Theorem C79_panics : forall F ord h go l, whole h l -> (exists n, show F ord n h go l = Panic) <-> hollow h l.
Proof. exact show_panic. Qed.
Print Assumptions C79_panics.
Theorem C79_terminates : forall F ord, order_ok ord -> forall h go l, whole h l -> acyclic h l -> ~ hollow h l ->
  exists t, returns (fun n => show F ord n h go l) t.
Proof. exact show_terminates. Qed.
Print Assumptions C79_terminates.
(** A dataset that reaches itself is never printed: the recursion does not end. *)
Theorem C79_cycle_refuted : forall F ord, order_ok ord -> forall h go l x, whole h l -> reach h l x -> tc (child h) x x ->
  forall n, show F ord n h go l = NoFuel.
Proof. exact show_diverges. Qed.
Print Assumptions C79_cycle_refuted.
Definition C79_lib : golib :=
  GoLib (fun _ => []) (fun _ => []) (fun _ => []) (fun _ => []) (fun v => match v with VInt _ z => itoa z | _ => [] end) (fun _ => 0).
Definition C79_order (_ : heap) (m : gmap bytes value) : list (bytes * value) := map_to_list m.
Definition C79_heap : heap :=
  <[1%positive := ODs (<[B "z" := VBool true]> (<[B "c" := VRef 2%positive]> (<[B "a" := VRef 3%positive]> ∅)))]>
  (<[2%positive := OColl [Some 3%positive; None; Some 4%positive]]>
  (<[3%positive := ODs (<[B "n" := VInt KInt 7]> ∅)]>
  (<[4%positive := OTs (Some 3%positive)]>
  (<[5%positive := ODs (<[B "me" := VRef 5%positive]> ∅)]> ∅)))).
Example C79_case :
  show C79_lib C79_order 9 C79_heap false 1 =
    Ok (B "xcore.XDataset{a:xcore.XDataset{n:7} c:XDatasetCollection[0:xcore.XDataset{n:7} 1:<nil> 2:xcore.XDataset{n:7} ] z:true}") /\
  show C79_lib C79_order 9 C79_heap true 4 = Ok (B "#xcore.XDataset{n:7}") /\
  show C79_lib C79_order 99 C79_heap false 5 = NoFuel.
Proof. by vm_compute. Qed.
(** A wrapper of nil inside a dataset and as an element, and printed itself. *)
Example C79_case_hollow : let h : heap := <[1%positive := ODs (<[B "c" := VRef 2%positive]> (<[B "w" := VRef 3%positive]> ∅))]>
    (<[2%positive := OColl [Some 3%positive]]> (<[3%positive := OTs (Some 4%positive)]> (<[4%positive := OTs None]> ∅))) in
  show C79_lib C79_order 9 h true 1 = Ok (B "#xcore.XDataset{c:XDatasetCollection[0:" ++ recovered false ++ B " ] w:" ++ recovered true ++ B "}") /\
  show C79_lib C79_order 9 h true 3 = Panic.
Proof. by vm_compute. Qed.
Example C79_case_cycle : whole C79_heap 5 /\ reach C79_heap 5 5 /\ tc (child C79_heap) 5%positive 5%positive.
Proof.
  assert (H5 : C79_heap !! 5%positive = Some (ODs (<[B "me" := VRef 5%positive]> ∅))) by done.
  assert (Hc : forall x, child C79_heap 5%positive x -> x = 5%positive).
  { intros x Hx. inversion Hx as [? m k ? Hl Hk|? ? Hl|? xs ? [Hl|Hl] Hin]; subst; rewrite H5 in Hl; try done.
    injection Hl as <-. apply lookup_insert_Some in Hk as [[_ [= <-]]|[_ Hk]]; [done|]. by rewrite lookup_empty in Hk. }
  split; [|split; [apply rtc_refl|]].
  - intros x Hx. assert (x = 5%positive) as ->.
    { remember 5%positive as y eqn:Ey. induction Hx as [|a b c Hab _ IH]; [done|]. subst. apply Hc in Hab as ->. by apply IH. }
    rewrite H5. by eexists.
  - apply tc_once. eapply child_ds; [exact H5|]. apply lookup_insert.
Qed.

(** * Property theorems about the documented metalanguage (C93). *)
From Verif Require Import GoBase GoStrings DatasetModel LangModel DatasetSpec TemplateModel TemplateSpec RenderSpec RenderProofs10 DocProofs.

(** ** C93 *)
(** !!list!! is !!dump!!, of the outermost dataset. *)
Theorem C93_list : forall F ord th lg h sc d t h' out,
  (renders_one F ord th lg h (sc ++ [d]) t (TDump (B "list")) h' out <-> renders_one F ord th lg h (sc ++ [d]) t (TDump (B "dump")) h' out) /\
  (renders_one F ord th lg h (sc ++ [d]) t (TDump (B "list")) h' out <-> h' = h /\ dumps F ord h d out).
Proof. intros. split; [apply list_as_dump|apply dump_outermost]. Qed.
Print Assumptions C93_list.
Theorem C93_list_shows_values_refuted : forall F langs,
  text F langs "!!list!!" only_list = Ok (B "#xcore.XDataset{c:XDatasetCollection[0:xcore.XDataset{n:secret} ]}").
Proof. exact list_shows_values. Qed.
Print Assumptions C93_list_shows_values_refuted.
(** Inside a dataset both show the outermost one. *)
Theorem C93_dump_inside : forall F langs, text F langs "&&x:d&&[[x]]!!dump!!,!!list!![[]]" inside =
  Ok (B "#xcore.XDataset{d:#xcore.XDataset{}},#xcore.XDataset{d:#xcore.XDataset{}}").
Proof. exact dump_inside. Qed.
Print Assumptions C93_dump_inside.
(** A condition on a dataset enters it; a condition on any other value does not change the level. *)
Theorem C93_condition_on_dataset : forall F ord th lg h sc t s d b x v q h' out, data_template s d b -> visible th t b (Some x) ->
  visible th t (dotted b (B "array")) q -> found h sc d (Some (VRef v)) -> dataset_at h v ->
  renders_one F ord th lg h sc t (TCond s) h' out <->
  renders F ord th lg h (v :: sc) (or_else q x) h' out /\ exists u, prints F ord h' (VRef v) u.
Proof. exact condition_level. Qed.
Print Assumptions C93_condition_on_dataset.
Theorem C93_condition_on_value : forall F ord th lg h sc t s d b x v w q h' out, data_template s d b -> visible th t b (Some x) ->
  visible th t (dotted b w) q -> found h sc d (Some v) -> (forall l, v <> VRef l) -> v <> VNil -> prints F ord h v w -> w <> [] ->
  renders_one F ord th lg h sc t (TCond s) h' out <-> renders F ord th lg h sc (or_else q x) h' out.
Proof. exact condition_same_level. Qed.
Print Assumptions C93_condition_on_value.
Theorem C93_condition_enters_refuted : forall F langs, text F langs "{{n}},??d:x??,{{n}}[[x]]{{n}}[[]]" nested = Ok (B "outer,inner,outer").
Proof. exact condition_enters. Qed.
Print Assumptions C93_condition_enters_refuted.
(** &&:field:prefix&& uses the template named prefix and value, else the one named prefix. *)
Theorem C93_selection : forall F ord th lg h sc t s a field prefix v h' out, separated ":"%char s a [field; prefix] -> field_text F ord h sc field v ->
  renders_one F ord th lg h sc t (TRef s) h' out <-> exists r, choose th t [prefix ++ v; prefix] r /\ renders_opt F ord th lg h sc r h' out.
Proof. exact selection. Qed.
Print Assumptions C93_selection.
Theorem C93_fallback_refuted : forall F langs,
  text F langs "<&&:k:sport.&&>[[sport.yes]]Y[[]][[sport.no]]N[[]][[sport]]unknown[[]]" nested = Ok (B "<>") /\
  text F langs "<&&:k:sport.&&>[[sport.yes]]Y[[]][[sport.]]unknown[[]]" nested = Ok (B "<unknown>").
Proof. exact fallback_unused. Qed.
Print Assumptions C93_fallback_refuted.
Theorem C93_loop_names_refuted : forall F langs,
  text F langs "@@c:loop@@[[loop_first|loop_last|loop_odd]]red[[]][[loop]]blue[[]]" nested = Ok (B "blueblue").
Proof. exact underscore_names_unused. Qed.
Print Assumptions C93_loop_names_refuted.
(** .even is used for the first, third... element. *)
Theorem C93_even_refuted : forall F langs,
  text F langs "@@c:loop@@[[loop.even]]even{{.counter}}[[]][[loop]]odd{{.counter}}[[]]" nested = Ok (B "even1odd2").
Proof. exact even_is_odd. Qed.
Print Assumptions C93_even_refuted.
(** The example of v2/xcore.go:574-612 renders as documented. *)
Definition levels : heap := list_to_map
  [(1%positive, ds [("detail"%string, VRef 2)]); (2%positive, ds [("data1"%string, VRef 3)]); (3%positive, ds [("data2"%string, VRef 4)]);
   (4%positive, ds [("key1"%string, VRef 5); ("key2"%string, VRef 6); ("appname"%string, VStr (B "DomCore"))]);
   (5%positive, ds [("appname"%string, VStr (B "Nested App")); ("name"%string, VStr (B "Juan")); ("status"%string, VInt KInt 1)]);
   (6%positive, ds [("name"%string, VStr (B "Jose")); ("status"%string, VInt KInt 2)])].
Example C93_case : forall F langs,
  text F langs "({{appname}}){{detail>data1>data2>key2>status}};&&a:detail>data1&&[[a]]({{appname}}){{data2>key1>name}};&&b:data2&&[[b]]{{appname}};&&c:key1&&;&&c:key2&&[[]][[c]]{{appname}}[[]][[]]" levels
  = Ok (B "()2;()Juan;DomCore;Nested App;DomCore").
Proof. intros F langs. vm_compute. reflexivity. Qed.

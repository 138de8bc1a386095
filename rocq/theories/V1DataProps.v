(** * Property theorems about the language (C83) and the datasets (C84) of the root package, version 1. *)
From Coq Require Import SpecFloat.
From Verif Require Import GoBase GoStrings LangModel FileModel DatasetModel DatasetSpec DatasetProofs2
  V1Lang V1LangProofs V1Dataset V1DatasetProofs.
Local Open Scope Z_scope.

(** ** C83 *)
Theorem C83_same_answers : forall parse_tag decode quote name tag ops,
  (lrun1 parse_tag (fun data => without_status <$> decode data) quote (new_lang1 name tag) ops).2 =
  (lrun parse_tag decode quote (new_lang name tag) (map lup ops)).2.
Proof. exact v1_lang_same. Qed.
Print Assumptions C83_same_answers.
Theorem C83_xml_file_refuted : forall parse_tag decode O l path,
  let r1 := load_xml_file1 parse_tag (fun data => without_status <$> decode data) O (drop_status l) path in
  let r2 := lang_load_xml_file O parse_tag decode l path in
  r_open r2 = 0 /\
  (can_close O path = true -> r_state r1 = drop_status (r_state r2) /\ r_ok r1 = r_ok r2) /\
  (can_open O path = true -> content O path = None -> r_open r1 = 1).
Proof. exact v1_xml_file. Qed.
Print Assumptions C83_xml_file_refuted.
Example C83_case :
  let decode := fun data : bytes => if bool_decide (data = B "<x/>") then Some (XDoc (B "n") (B "es") [((B "a", B "uno"), B "new")]) else None in
  (lrun1 id (fun data => without_status <$> decode data) id (new_lang1 (B "m") (B "en"))
     [MLoadString (B "a = one"); MGet (B "a"); MLoadXML (B "<x/>"); MGet (B "a"); MGetName; MGetLanguage; MLoadXML (B "<"); MDel (B "a"); MGet (B "a")]).2
  = [LErr true; LText (B "one"); LErr true; LText (B "uno"); LText (B "n"); LText (B "es"); LErr false; LUnit; LText []].
Proof. by vm_compute. Qed.

(** ** C84 *)
Theorem C84_same : forall F h l key r, gets h l key r -> (forall t, r <> Some (VTime t)) ->
  (r <> Some VNil -> forall b, returns (fun n => get_bool1 n h l key) b <-> returns (fun n => get_bool n h l key) b) /\
  (forall i, returns (fun n => get_int1 F n h l key) i <-> returns (fun n => get_int F n h l key) i) /\
  (forall f, returns (fun n => get_float1 n h l key) f <-> returns (fun n => get_float n h l key) f).
Proof. exact v1_same. Qed.
Print Assumptions C84_same.
Theorem C84_nil : forall h l key, gets h l key (Some VNil) ->
  returns (fun n => get_bool1 n h l key) (false, false) /\ returns (fun n => get_bool n h l key) (false, true).
Proof. exact v1_nil. Qed.
Print Assumptions C84_nil.
Theorem C84_time : forall F h l key t, gets h l key (Some (VTime t)) ->
  returns (fun n => get_bool1 n h l key) (true, true) /\ returns (fun n => get_int1 F n h l key) (0, false) /\
  returns (fun n => get_float1 n h l key) (S754_zero false, false) /\
  returns (fun n => get_bool n h l key) (bool_decide (~ (t_sec t = 0 /\ t_nsec t = 0)), true) /\
  (exists z, returns (fun n => get_int F n h l key) (z, true)) /\ (exists f, returns (fun n => get_float n h l key) (f, true)).
Proof. exact v1_time. Qed.
Print Assumptions C84_time.
Theorem C84_collection : forall n h c xs key r, h !! c = Some (OColl xs) -> cget_data n h c key = Ok r ->
  (cget_collection1 n h c key = Panic <-> exists v, r = Some v /\ ~ exists x ys, v = VRef x /\ collection_at h x ys) /\
  (cget_collection1 n h c key <> Panic -> cget_collection1 n h c key = cget_collection n h c key).
Proof. exact v1_collection. Qed.
Print Assumptions C84_collection.
Theorem C84_collection_panics_refuted :
  cget_collection1 5 v1_heap 2 (B "k") = Panic /\ cget_collection 5 v1_heap 2 (B "k") = Ok None.
Proof. exact v1_collection_panics. Qed.
Print Assumptions C84_collection_panics_refuted.
Example C84_case :
  let h : heap := {[1%positive := ODs (<[B "t" := VTime (GoTime 5 0 0)]> (<[B "n" := VNil]> {[B "i" := VInt KInt8 3]}))]} in
  map (fun k => get_bool1 5 h 1 (B k)) ["t"; "n"; "i"; "x"]%string = [Ok (true, true); Ok (false, false); Ok (true, true); Ok (false, false)] /\
  gets h 1 (B "n") (Some VNil) /\ gets h 1 (B "i") (Some (VInt KInt8 3)).
Proof. split; [by vm_compute|]. split; exists 5%nat; by vm_compute. Qed.

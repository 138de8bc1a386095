(** * Property theorems about XLanguage (C39-C42, C69). *)
From Verif Require Import GoBase GoStrings GoStringsProofs LangModel LangSpec LangProofs LangProofs2.

(** C39: after any history of the operations of the table (everything but the loads). *)
Theorem C39_get : forall parse_tag decode quote name tag ops k,
  Forall table_op ops ->
  let r := (lstep parse_tag decode quote (lrun parse_tag decode quote (new_lang name tag) ops).1 (LGet k)).2 in
  (forall v, last_entry k v ops -> r = LText v) /\ (no_entry k ops -> r = LText []).
Proof. exact @get_last. Qed.
Print Assumptions C39_get.
Theorem C39_get_status : forall parse_tag decode quote name tag ops k,
  Forall table_op ops ->
  let r := (lstep parse_tag decode quote (lrun parse_tag decode quote (new_lang name tag) ops).1 (LGetStatus k)).2 in
  (forall v, last_status k v ops -> r = LText v) /\ (no_status k ops -> r = LText []).
Proof. exact @get_status_last. Qed.
Print Assumptions C39_get_status.
Theorem C39_get_entries : forall parse_tag decode quote name tag ops order,
  Forall table_op ops -> 
  order_of (l_entries (lrun parse_tag decode quote (new_lang name tag) ops).1) order ->
  exists m, (lstep parse_tag decode quote (lrun parse_tag decode quote (new_lang name tag) ops).1 (LGetEntries order)).2 = LTable m /\
    forall k v, m !! k = Some v <-> last_entry k v ops.
Proof. exact @get_entries_all. Qed.
Print Assumptions C39_get_entries.
Theorem C39_name : forall parse_tag decode quote name tag ops,
  Forall (fun o => ~ loads_xml o) ops ->
  let r := (lstep parse_tag decode quote (lrun parse_tag decode quote (new_lang name tag) ops).1 LGetName).2 in
  (forall n, last_name n ops -> r = LText n) /\ (Forall (fun o => ~ names o) ops -> r = LText name).
Proof. exact @name_last. Qed.
Print Assumptions C39_name.
Theorem C39_tag : forall parse_tag decode quote name tag ops,
  Forall (fun o => ~ loads_xml o) ops ->
  let r := (lstep parse_tag decode quote (lrun parse_tag decode quote (new_lang name tag) ops).1 LGetLanguage).2 in
  (forall t, last_tag t ops -> r = LText t) /\ (Forall (fun o => ~ tags o) ops -> r = LText tag).
Proof. exact @tag_last. Qed.
Print Assumptions C39_tag.
Example C39_name_case :
  let ops := [LSetName (B "x"); LSetLanguage (B "fr"); LSet (B "a") (B "1"); LSetName (B "y"); LLoadString (B "a=2")] in
  last_name (B "y") ops /\ last_tag (B "fr") ops /\
  (lrun (fun t => t) (fun _ => None) (fun t => t) (new_lang (B "n") (B "en")) (ops ++ [LGetName; LGetLanguage; LGet (B "a")])).2
    = [LUnit; LUnit; LUnit; LUnit; LErr true; LText (B "y"); LText (B "fr"); LText (B "2")].
Proof.
  cbv zeta. split_and!.
  - eexists [_; _; _], _. split; [reflexivity|]. repeat constructor; by vm_compute.
  - eexists [_], _. split; [reflexivity|]. repeat constructor; by vm_compute.
  - by vm_compute.
Qed.
Definition C39_ops : list lop :=
  [LSet (B "a") (B "1"); LSetStatus (B "a") (B "new"); LSet (B "b") (B "x"); LSet (B "a") (B "2"); LDel (B "b"); LGet (B "b")].
Example C39_case : Forall table_op C39_ops /\
  last_entry (B "a") (B "2") C39_ops /\ last_status (B "a") (B "new") C39_ops /\ no_entry (B "b") C39_ops /\
  (lrun (fun t => t) (fun _ => None) (fun t => t) (new_lang (B "n") (B "en")) C39_ops).2 = [LUnit; LUnit; LUnit; LUnit; LUnit; LText []].
Proof.
  split_and!.
  - repeat constructor.
  - eexists [_; _; _], _. split; [reflexivity|]. repeat constructor; by vm_compute.
  - eexists [_], _. split; [reflexivity|]. repeat constructor; by vm_compute.
  - right. eexists [_; _; _; _], _. split; [reflexivity|]. repeat constructor; by vm_compute.
  - by vm_compute.
Qed.

(** C40: the load is the overlay by the lines of the text; statuses, name and language stay. *)
Theorem C40_load_string : forall l data raws lines,
  raw_lines data raws -> Forall short raws -> Forall2 chomp raws lines ->
  exists l', load_string l data = (l', true) /\ overlay (l_entries l) lines (l_entries l') /\
    l_status l' = l_status l /\ l_name l' = l_name l /\ l_tag l' = l_tag l.
Proof. exact load_string_ok. Qed.
Print Assumptions C40_load_string.
(** The specification is total and has one answer. *)
Theorem C40_lines_total : forall data, exists raws lines, raw_lines data raws /\ Forall2 chomp raws lines.
Proof. exact lines_total. Qed.
Print Assumptions C40_lines_total.
Theorem C40_overlay_unique : forall m ls m1 m2, overlay m ls m1 -> overlay m ls m2 -> m1 = m2.
Proof. exact overlay_unique. Qed.
Print Assumptions C40_overlay_unique.
(** What is not mentioned is kept; the last mention wins. *)
Theorem C40_overlay_keeps : forall m ls m' k,
  overlay m ls m' -> (forall l v, l ∈ ls -> ~ entry_line l k v) -> m' !! k = m !! k.
Proof. exact overlay_keeps. Qed.
Print Assumptions C40_overlay_keeps.
Theorem C40_overlay_last : forall m ls1 l ls2 m' k v,
  overlay m (ls1 ++ l :: ls2) m' -> entry_line l k v -> (forall l' v', l' ∈ ls2 -> ~ entry_line l' k v') ->
  m' !! k = Some v.
Proof. exact overlay_last. Qed.
Print Assumptions C40_overlay_last.
(** The blanks that are trimmed are the white space of Unicode. *)
Theorem C40_blanks : forall w, w ∈ spaces <-> exists n, white n /\ w = encoding n.
Proof. exact spaces_white. Qed.
Print Assumptions C40_blanks.
Example C40_case :
  let data := B "# c=1" ++ [lf] ++ B " a = x = y " ++ [cr; lf] ++ B "=z" ++ [lf; lf] ++ B "novalue" ++ [lf] ++ B "b=" in
  let l := lset_status (lset (lset (new_lang (B "n") (B "fr")) (B "a") (B "old")) (B "keep") (B "k")) (B "a") (B "ok") in
  load_string l data =
    (lset (lset l (B "a") (B "x = y")) (B "b") (B ""), true) /\
  exists raws, raw_lines data raws /\ Forall short raws /\ length raws = 6.
Proof.
  split; [vm_compute; done|]. eexists. split; [by apply raw_lines_split|].
  split; [|vm_compute; done]. by apply (bool_decide_unpack _); vm_compute.
Qed.

(** C41 *)
Theorem C41_flat_round_trip : forall m order,
  order_of m order -> Forall flat_ok order -> new_from_string (flat_text order) = Some (Lang [] [] m ∅).
Proof. exact flat_round_trip. Qed.
Print Assumptions C41_flat_round_trip.
Example C41_case :
  let order := [(B "key two", B "a=b"); (B "k1", B "")] in
  order_of (list_to_map order) order /\ flat_text order = B "key two=a=b" ++ [lf] ++ B "k1=" ++ [lf] /\
  new_from_string (flat_text order) = Some (lset (lset (new_lang [] []) (B "key two") (B "a=b")) (B "k1") []) /\ Forall flat_ok order.
Proof.
  cbv zeta. split_and!; [|vm_compute; done|vm_compute; done|].
  - unfold order_of. symmetry. apply map_to_list_to_map. apply (bool_decide_unpack _); by vm_compute.
  - repeat constructor; simpl; try discriminate; try by (apply (bool_decide_unpack _); vm_compute).
    all: try (intros r; vm_compute; discriminate).
    all: try (rewrite not_starts_blank_check; vm_compute; done).
    all: try (rewrite not_ends_blank_check; vm_compute; done).
Qed.

(** C42 *)
Theorem C42_long_line : forall l data raws long rest lines,
  raw_lines data (raws ++ long :: rest) -> Forall short raws -> ~ short long -> Forall2 chomp raws lines ->
  exists l', load_string l data = (l', false) /\ overlay (l_entries l) lines (l_entries l') /\
    l_status l' = l_status l /\ new_from_string data = None.
Proof. exact load_string_long. Qed.
Print Assumptions C42_long_line.
Example C42_case :
  let data := B "a=1" ++ [lf] ++ replicate (Z.to_nat 65536) (byte 120) ++ [lf] ++ B "b=2" in
  load_string (new_lang [] []) data = (lset (new_lang [] []) (B "a") (B "1"), false).
Proof. vm_compute. done. Qed.

(** ** C69: loading XML over a language that has content *)
Theorem C69_overlay : forall parse_tag decode l data d, decode data = Some d ->
  exists l', load_xml parse_tag decode l data = (l', true) /\ l_name l' = x_name d /\ l_tag l' = parse_tag (x_lang d) /\
  (forall id, (forall text status, (id, text, status) ∉ x_entries d) ->
     l_entries l' !! id = l_entries l !! id /\ l_status l' !! id = l_status l !! id) /\
  (forall es1 id text status es2, x_entries d = es1 ++ (id, text, status) :: es2 -> (forall text' status', (id, text', status') ∉ es2) ->
     l_entries l' !! id = Some text /\ l_status l' !! id = Some status).
Proof. exact load_xml_overlay. Qed.
Print Assumptions C69_overlay.
Theorem C69_rejected : forall parse_tag decode l data, decode data = None -> load_xml parse_tag decode l data = (l, false).
Proof. exact load_xml_rejected. Qed.
Print Assumptions C69_rejected.
(** The documentation says both loaders replace the content. *)
Theorem C69_xml_not_replaced_refuted : forall parse_tag decode l data d id v, decode data = Some d ->
  l_entries l !! id = Some v -> (forall text status, (id, text, status) ∉ x_entries d) ->
  lget (load_xml parse_tag decode l data).1 id = v.
Proof. exact load_xml_keeps_old. Qed.
Print Assumptions C69_xml_not_replaced_refuted.
Theorem C69_text_not_replaced_refuted : forall l data raws lines id v,
  raw_lines data raws -> Forall short raws -> Forall2 chomp raws lines ->
  l_entries l !! id = Some v -> (forall line v', line ∈ lines -> ~ entry_line line id v') ->
  lget (load_string l data).1 id = v.
Proof. exact load_string_keeps_old. Qed.
Print Assumptions C69_text_not_replaced_refuted.
Example C69_case :
  let l := lset_status (lset (lset (new_lang (B "n") (B "fr")) (B "a") (B "old")) (B "keep") (B "k")) (B "keep") (B "ok") in
  let decode (_ : bytes) := Some (XDoc (B "m") (B "EN") [(B "a", B "1", B "x"); (B "b", B "2", []); (B "a", B "3", B "y")]) in
  let '(l', ok) := load_xml (fun _ => B "en") decode l [] in
  ok = true /\ (l_name l', l_tag l') = (B "m", B "en") /\
  map (lget l') [B "a"; B "b"; B "keep"; B "c"] = [B "3"; B "2"; B "k"; []] /\
  map (lget_status l') [B "a"; B "b"; B "keep"; B "c"] = [B "y"; []; B "ok"; []].
Proof. vm_compute. split_and!; reflexivity. Qed.

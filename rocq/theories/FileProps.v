(** * Property theorems about loading files (C70). *)
From Verif Require Import GoBase GoStrings DatasetModel LangModel TemplateModel FileModel FileProofs.
Local Open Scope Z_scope.

(** ** C70 *)
Theorem C70_language_files : forall O path data l parse_tag decode, readable O path data ->
  (let '(l', ok) := load_string l data in lang_load_file O l path = Run l' ok 0) /\
  lang_from_file O path = new_from_string data /\
  (let '(l', ok) := load_xml parse_tag decode l data in lang_load_xml_file O parse_tag decode l path = Run l' ok 0) /\
  lang_from_xml_file O parse_tag decode path = lang_from_xml_string parse_tag decode data.
Proof. exact lang_files. Qed.
Print Assumptions C70_language_files.
Theorem C70_template_files : forall O path data th t, readable O path data ->
  (let '(th', ok) := compile th t data in tmpl_load_file O th t path = Run th' ok 0) /\
  tmpl_from_file O th path = new_template th data.
Proof. exact tmpl_files. Qed.
Print Assumptions C70_template_files.
Theorem C70_language_errors : forall O path l, unreadable O path ->
  r_ok (lang_load_file O l path) = false /\ r_state (lang_load_file O l path) = l /\ lang_from_file O path = None.
Proof. exact lang_file_errors. Qed.
Print Assumptions C70_language_errors.
Theorem C70_xml_errors : forall O path l parse_tag decode, can_open O path = false \/ content O path = None ->
  r_ok (lang_load_xml_file O parse_tag decode l path) = false /\ r_state (lang_load_xml_file O parse_tag decode l path) = l /\
  lang_from_xml_file O parse_tag decode path = None.
Proof. exact lang_xml_file_errors. Qed.
Print Assumptions C70_xml_errors.
Theorem C70_template_errors : forall O path th t, unreadable O path ->
  r_ok (tmpl_load_file O th t path) = false /\ r_state (tmpl_load_file O th t path) = th /\ (tmpl_from_file O th path).2 = None.
Proof. exact tmpl_file_errors. Qed.
Print Assumptions C70_template_errors.
(** A path that opens but cannot be read (a directory) leaves a handle open. *)
Theorem C70_handle_left_refuted : forall O path, can_open O path = true -> content O path = None ->
  (forall l, r_open (lang_load_file O l path) = 1) /\ forall th t, r_open (tmpl_load_file O th t path) = 1.
Proof.
  exact (fun O path H1 H2 => conj (fun l => proj2 (proj1 (load_file_handles O load_string l path)) (conj H1 H2))
    (fun th t => proj2 (proj1 (load_file_handles O (fun th data => compile th t data) th path)) (conj H1 H2))).
Qed.
Print Assumptions C70_handle_left_refuted.
Theorem C70_handles_closed : forall O path, ~ (can_open O path = true /\ content O path = None) ->
  (forall l, r_open (lang_load_file O l path) = 0) /\ (forall th t, r_open (tmpl_load_file O th t path) = 0).
Proof.
  exact (fun O path H => conj (fun l => proj2 (proj2 (load_file_handles O load_string l path)) H)
    (fun th t => proj2 (proj2 (load_file_handles O (fun th data => compile th t data) th path)) H)).
Qed.
Print Assumptions C70_handles_closed.
Theorem C70_xml_handles : forall O path l parse_tag decode, r_open (lang_load_xml_file O parse_tag decode l path) = 0.
Proof. exact xml_file_handles. Qed.
Print Assumptions C70_xml_handles.
(** A file, a directory and nothing else. *)
Definition C70_os : os :=
  Os (fun p => bool_decide (p = B "a.txt" \/ p = B "dir")) (fun p => if bool_decide (p = B "a.txt") then Some (B "k=v") else None) (fun _ => true).
Example C70_case :
  readable C70_os (B "a.txt") (B "k=v") /\ unreadable C70_os (B "dir") /\ unreadable C70_os (B "none") /\
  lang_from_file C70_os (B "a.txt") = Some (lset (new_lang [] []) (B "k") (B "v")) /\
  lang_load_file C70_os (new_lang [] []) (B "dir") = Run (new_lang [] []) false 1 /\
  lang_load_file C70_os (new_lang [] []) (B "none") = Run (new_lang [] []) false 0 /\
  (tmpl_from_file C70_os ∅ (B "a.txt")).2 = Some 1%positive /\ (tmpl_from_file C70_os ∅ (B "dir")).2 = None.
Proof. split; [done|]. split; [right; left; done|]. split; [left; done|]. vm_compute. done. Qed.

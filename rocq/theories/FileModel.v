(** * The loaders that read files: v2/xlanguage.go:33-42, 57-66, 81-87, 129-143 and
    v2/xtemplate.go:92-99, 112-126.

    The operating system (trusted) is an oracle: for a path, whether os.Open succeeds, what
    reading the whole file gives ([None]: an error, as for a directory) and whether closing
    succeeds.  A run also says how many handles it opened and did not close (the garbage
    collector may close them later, at an unspecified time). *)
From Verif Require Import GoBase GoStrings DatasetModel LangModel TemplateModel.
Local Open Scope Z_scope.

Record os := Os { can_open : bytes -> bool; content : bytes -> option bytes; can_close : bytes -> bool }.

(** Result, [true]: no error, and the number of handles left open. *)
Record run (A : Type) := Run { r_state : A; r_ok : bool; r_open : Z }.
Arguments Run {A}. Arguments r_state {A}. Arguments r_ok {A}. Arguments r_open {A}.

Section Files.
  Context (O : os).
  (** The body common to XLanguage.LoadFile (v2/xlanguage.go:129-143) and XTemplate.LoadFile
      (v2/xtemplate.go:112-126): Open, ReadAll, Close, LoadString; each error returns at once. *)
  Definition load_file {A} (load : A -> bytes -> A * bool) (a : A) (path : bytes) : run A :=
    if can_open O path then
      match content O path with
      | None => Run a false 1
      | Some data =>
          if can_close O path then let '(a', ok) := load a data in Run a' ok 0
          else Run a false 0
      end
    else Run a false 0.
  (** ioutil.ReadFile closes the file in every case (deferred, its error is dropped). *)
  Definition read_file (path : bytes) : option bytes := if can_open O path then content O path else None.

  (** v2/xlanguage.go:129-143. *)
  Definition lang_load_file (l : lang) (path : bytes) : run lang := load_file load_string l path.
  (** v2/xlanguage.go:57-66 [NewXLanguageFromFile]; [None]: nil and an error. *)
  Definition lang_from_file (path : bytes) : option lang :=
    let r := lang_load_file (Lang [] [] ∅ ∅) path in if r_ok r then Some (r_state r) else None.
  (** v2/xlanguage.go:81-87 [LoadXMLFile]. *)
  Definition lang_load_xml_file (parse_tag : bytes -> bytes) (decode : bytes -> option xdoc) (l : lang) (path : bytes) : run lang :=
    match read_file path with
    | None => Run l false 0
    | Some data => let '(l', ok) := load_xml parse_tag decode l data in Run l' ok 0
    end.
  (** v2/xlanguage.go:33-42 [NewXLanguageFromXMLFile], 45-54 [NewXLanguageFromXMLString]. *)
  Definition lang_from_xml_file (parse_tag : bytes -> bytes) (decode : bytes -> option xdoc) (path : bytes) : option lang :=
    let r := lang_load_xml_file parse_tag decode (Lang [] [] ∅ ∅) path in if r_ok r then Some (r_state r) else None.
  Definition lang_from_xml_string (parse_tag : bytes -> bytes) (decode : bytes -> option xdoc) (data : bytes) : option lang :=
    let '(l, ok) := load_xml parse_tag decode (Lang [] [] ∅ ∅) data in if ok then Some l else None.
  (** v2/xtemplate.go:112-126 [LoadFile]; the state is the heap of templates. *)
  Definition tmpl_load_file (th : theap) (t : loc) (path : bytes) : run theap := load_file (fun th data => compile th t data) th path.
  (** v2/xtemplate.go:92-99 [NewXTemplateFromFile]. *)
  Definition tmpl_from_file (th : theap) (path : bytes) : theap * option loc :=
    let '(th1, t) := talloc th empty_tmpl in
    let r := tmpl_load_file th1 t path in (r_state r, if r_ok r then Some t else None).
End Files.

(** * Model of the XLanguage of the root package (xlanguage.go, version 1): no statuses, no lock. *)
From Verif Require Import GoBase GoStrings LangModel FileModel.
Local Open Scope Z_scope.

(** xlanguage.go:16-20 [XLanguage]. *)
Record lang1 := Lang1 { l1_name : bytes; l1_tag : bytes; l1_entries : table }.
(** xlanguage.go:23-25 [NewXLanguage]. *)
Definition new_lang1 (name tag : bytes) : lang1 := Lang1 name tag ∅.
(** xlanguage.go:199-201 [Set]. *)
Definition lset1 (l : lang1) (k v : bytes) : lang1 := Lang1 (l1_name l) (l1_tag l) (<[k := v]> (l1_entries l)).
(** xlanguage.go:204-210 [Get]. *)
Definition lget1 (l : lang1) (k : bytes) : bytes := match l1_entries l !! k with Some v => v | None => [] end.
(** xlanguage.go:213-215 [Del]. *)
Definition ldel1 (l : lang1) (k : bytes) : lang1 := Lang1 (l1_name l) (l1_tag l) (delete k (l1_entries l)).
(** xlanguage.go:152-170: one line. *)
Definition load_line1 (l : lang1) (line : bytes) : lang1 :=
  match line with
  | [] => l
  | c :: _ =>
      match cut_at (byte 61) line with
      | None => l
      | Some (before, after) =>
          if bool_decide (c = byte 35 \/ c = byte 59) then l
          else let key := trim_space before in
               match key with [] => l | _ => lset1 l key (trim_space after) end
      end
  end.
(** xlanguage.go:148-176 [LoadString]. *)
Definition load_string1 (l : lang1) (data : bytes) : lang1 * bool :=
  let '(lines, ok) := scan_lines data in (fold_left load_line1 lines l, ok).
(** What Unmarshal delivers into the structures of lines 99-108 (types xentry, xlang): entries (id, text). *)
Record xdoc1 := XDoc1 { x1_name : bytes; x1_lang : bytes; x1_entries : list (bytes * bytes) }.

Section Lang.
  Context (parse_tag : bytes -> bytes) (decode1 : bytes -> option xdoc1) (quote : bytes -> bytes).
  (** xlanguage.go:97-124 [LoadXMLString]. *)
  Definition load_xml1 (l : lang1) (data : bytes) : lang1 * bool :=
    match decode1 data with
    | None => (l, false)
    | Some d => (fold_left (fun l e => lset1 l e.1 e.2) (x1_entries d) (Lang1 (x1_name d) (parse_tag (x1_lang d)) (l1_entries l)), true)
    end.
  (** xlanguage.go:78-92 [LoadXMLFile]: Open, ReadAll, Close, as in [LoadFile] (129-143). *)
  Definition load_xml_file1 (O : os) (l : lang1) (path : bytes) : run lang1 := load_file O load_xml1 l path.
  Definition load_file1 (O : os) (l : lang1) (path : bytes) : run lang1 := load_file O load_string1 l path.

  (** The calls; [order] is the iteration order of the map (xlanguage.go:218-235 String, GoString). *)
  Inductive lop1 :=
  | MSet (k v : bytes) | MGet (k : bytes) | MDel (k : bytes) | MLoadString (data : bytes) | MLoadXML (data : bytes)
  | MSetName (n : bytes) | MGetName | MSetLanguage (t : bytes) | MGetLanguage
  | MString (order : list (bytes * bytes)) | MGoString (order : list (bytes * bytes)).
  Definition lstep1 (l : lang1) (o : lop1) : lang1 * lres :=
    match o with
    | MSet k v => (lset1 l k v, LUnit)
    | MGet k => (l, LText (lget1 l k))
    | MDel k => (ldel1 l k, LUnit)
    | MLoadString data => let '(l', ok) := load_string1 l data in (l', LErr ok)
    | MLoadXML data => let '(l', ok) := load_xml1 l data in (l', LErr ok)
    | MSetName n => (Lang1 n (l1_tag l) (l1_entries l), LUnit)               (* lines 179-181 *)
    | MGetName => (l, LText (l1_name l))                                     (* lines 189-191 *)
    | MSetLanguage t => (Lang1 (l1_name l) t (l1_entries l), LUnit)          (* lines 184-186 *)
    | MGetLanguage => (l, LText (l1_tag l))                                  (* lines 194-196 *)
    | MString order =>
        (l, LText (B "xcore.XLanguage{" ++ join (B " ") (sort_strings (map (fun kv => kv.1 ++ B ":" ++ kv.2) order)) ++ B "}"))
    | MGoString order =>
        (l, LText (B "#xcore.XLanguage{" ++ join (B " ") (sort_strings (map (fun kv => kv.1 ++ B ":" ++ quote kv.2) order)) ++ B "}"))
    end.
  Fixpoint lrun1 (l : lang1) (ops : list lop1) : lang1 * list lres :=
    match ops with
    | [] => (l, [])
    | o :: ops' => let '(l1, r) := lstep1 l o in let '(l2, rs) := lrun1 l1 ops' in (l2, r :: rs)
    end.
End Lang.

(** The same calls on version 2. *)
Definition lup (o : lop1) : lop :=
  match o with
  | MSet k v => LSet k v | MGet k => LGet k | MDel k => LDel k | MLoadString data => LLoadString data
  | MLoadXML data => LLoadXML data | MSetName n => LSetName n | MGetName => LGetName | MSetLanguage t => LSetLanguage t
  | MGetLanguage => LGetLanguage | MString order => LString order | MGoString order => LGoString order
  end.
(** The decoder of version 1 is that of version 2 without the attribute status. *)
Definition without_status (d : xdoc) : xdoc1 := XDoc1 (x_name d) (x_lang d) (map fst (x_entries d)).

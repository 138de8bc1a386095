(** * XLanguage (v2/xlanguage.go) used by one thread.

    Outside world: [parse_tag] is golang.org/x/text/language.Parse followed by the printing
    of the tag (a [language.Tag] is represented by its printed form); [decode] is
    encoding/xml.Unmarshal into the two structures of lines 94-104; [quote] is the
    printing of a string with %#v. *)
From Verif Require Import GoBase GoStrings.

Notation table := (gmap bytes bytes).

(** v2/xlanguage.go:17-23 [XLanguage]; the mutex is in LockInst.v and Skeletons.v. *)
Record lang := Lang { l_name : bytes; l_tag : bytes; l_entries : table; l_status : table }.

(** v2/xlanguage.go:26-28 [NewXLanguage]. *)
Definition new_lang (name tag : bytes) : lang := Lang name tag ∅ ∅.

(** v2/xlanguage.go:201-205 [Set]. *)
Definition lset (l : lang) (k v : bytes) : lang := Lang (l_name l) (l_tag l) (<[k := v]> (l_entries l)) (l_status l).
(** v2/xlanguage.go:208-216 [Get]. *)
Definition lget (l : lang) (k : bytes) : bytes := match l_entries l !! k with Some v => v | None => [] end.
(** v2/xlanguage.go:219-223 [SetStatus]. *)
Definition lset_status (l : lang) (k v : bytes) : lang := Lang (l_name l) (l_tag l) (l_entries l) (<[k := v]> (l_status l)).
(** v2/xlanguage.go:226-234 [GetStatus]. *)
Definition lget_status (l : lang) (k : bytes) : bytes := match l_status l !! k with Some v => v | None => [] end.
(** v2/xlanguage.go:237-242 [Del]. *)
Definition ldel (l : lang) (k : bytes) : lang := Lang (l_name l) (l_tag l) (delete k (l_entries l)) (delete k (l_status l)).
(** v2/xlanguage.go:245-253 [GetEntries]: the copy is made entry by entry, in the
    iteration order [order] of the map. *)
Definition lget_entries (order : list (bytes * bytes)) : table := fold_left (fun m kv => <[kv.1 := kv.2]> m) order ∅.

(** v2/xlanguage.go:151-173: one line of the flat format. *)
Definition load_line (l : lang) (line : bytes) : lang :=
  match line with
  | [] => l
  | c :: _ =>
      match cut_at (byte 61) line with            (* '=' *)
      | None => l
      | Some (before, after) =>
          if bool_decide (c = byte 35 \/ c = byte 59) then l     (* '#' ';' *)
          else let key := trim_space before in
               match key with [] => l | _ => lset l key (trim_space after) end
      end
  end.
(** v2/xlanguage.go:148-178 [LoadString]; [true]: no error. *)
Definition load_string (l : lang) (data : bytes) : lang * bool :=
  let '(lines, ok) := scan_lines data in (fold_left load_line lines l, ok).
(** v2/xlanguage.go:69-76 [NewXLanguageFromString]; [None]: nil and an error. *)
Definition new_from_string (data : bytes) : option lang :=
  let '(l, ok) := load_string (Lang [] [] ∅ ∅) data in if ok then Some l else None.

(** What Unmarshal delivers: name, language, entries (id, text, status) in document order. *)
Record xdoc := XDoc { x_name : bytes; x_lang : bytes; x_entries : list (bytes * bytes * bytes) }.

Section Lang.
  Context (parse_tag : bytes -> bytes) (decode : bytes -> option xdoc) (quote : bytes -> bytes).

  (** v2/xlanguage.go:119-122: the loop. *)
  Definition add_entry (l : lang) (e : bytes * bytes * bytes) : lang :=
    let '(id, text, status) := e in lset_status (lset l id text) id status.
  (** v2/xlanguage.go:92-124 [LoadXMLString]. *)
  Definition load_xml (l : lang) (data : bytes) : lang * bool :=
    match decode data with
    | None => (l, false)
    | Some d => (fold_left add_entry (x_entries d) (Lang (x_name d) (parse_tag (x_lang d)) (l_entries l) (l_status l)), true)
    end.

  (** v2/xlanguage.go:256-266 [GetXML]; [order]: the iteration order of the map. *)
  Definition xml_entry (l : lang) (kv : bytes * bytes) : bytes :=
    B "  <entry id=""" ++ kv.1 ++ B """ status=""" ++ lget_status l kv.1 ++ B """><![CDATA[" ++ kv.2 ++ B "]]></entry>".
  Definition get_xml (l : lang) (order : list (bytes * bytes)) : bytes :=
    B "<?xml version=""1.0"" encoding=""UTF-8"" ?>" ++ [lf] ++
    B "<language id=""" ++ l_name l ++ B """ lang=""" ++ l_tag l ++ B """>" ++ [lf] ++
    join [lf] (sort_strings (map (xml_entry l) order)) ++ [lf] ++ B "</language>".

  (** v2/xlanguage.go:269-278 [String], 281-290 [GoString]. *)
  Definition lstring (order : list (bytes * bytes)) : bytes :=
    B "xcore.XLanguage{" ++ join (B " ") (sort_strings (map (fun kv => kv.1 ++ B ":" ++ kv.2) order)) ++ B "}".
  Definition lgostring (order : list (bytes * bytes)) : bytes :=
    B "#xcore.XLanguage{" ++ join (B " ") (sort_strings (map (fun kv => kv.1 ++ B ":" ++ quote kv.2) order)) ++ B "}".

  (** The iteration order of a Go map: any order of its entries. *)
  Definition order_of (m : table) (order : list (bytes * bytes)) : Prop := order ≡ₚ map_to_list m.

  (** ** Operations and histories *)
  Inductive lop :=
  | LSet (k v : bytes) | LGet (k : bytes) | LSetStatus (k v : bytes) | LGetStatus (k : bytes) | LDel (k : bytes)
  | LGetEntries (order : list (bytes * bytes)) | LLoadString (data : bytes) | LLoadXML (data : bytes)
  | LSetName (n : bytes) | LGetName | LSetLanguage (t : bytes) | LGetLanguage
  | LGetXML (order : list (bytes * bytes)) | LString (order : list (bytes * bytes)) | LGoString (order : list (bytes * bytes)).
  Inductive lres := LUnit | LText (t : bytes) | LTable (m : table) | LErr (ok : bool).
  Definition lstep (l : lang) (o : lop) : lang * lres :=
    match o with
    | LSet k v => (lset l k v, LUnit)
    | LGet k => (l, LText (lget l k))
    | LSetStatus k v => (lset_status l k v, LUnit)
    | LGetStatus k => (l, LText (lget_status l k))
    | LDel k => (ldel l k, LUnit)
    | LGetEntries order => (l, LTable (lget_entries order))
    | LLoadString data => let '(l', ok) := load_string l data in (l', LErr ok)
    | LLoadXML data => let '(l', ok) := load_xml l data in (l', LErr ok)
    | LSetName n => (Lang n (l_tag l) (l_entries l) (l_status l), LUnit)     (* lines 181-183 *)
    | LGetName => (l, LText (l_name l))                                      (* lines 191-193 *)
    | LSetLanguage t => (Lang (l_name l) t (l_entries l) (l_status l), LUnit) (* lines 186-188 *)
    | LGetLanguage => (l, LText (l_tag l))                                   (* lines 196-198 *)
    | LGetXML order => (l, LText (get_xml l order))
    | LString order => (l, LText (lstring order))
    | LGoString order => (l, LText (lgostring order))
    end.
  Fixpoint lrun (l : lang) (ops : list lop) : lang * list lres :=
    match ops with
    | [] => (l, [])
    | o :: ops' => let '(l1, r) := lstep l o in let '(l2, rs) := lrun l1 ops' in (l2, r :: rs)
    end.
End Lang.

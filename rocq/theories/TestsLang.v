(** * The tests of v2/xlanguage_test.go, replayed on the model (see TestsCache.v).
    The files are those of v2/testunit, byte for byte; the decoder is the model of package
    encoding/xml in XmlModel.v; the language tags of the files are kept as written. *)
From Verif Require Import GoBase GoStrings LangModel XmlModel.
Local Open Scope Z_scope.

Definition decode_xml (s : bytes) : option xdoc := match unmarshal s with XOk d => Some d | _ => None end.
Definition load (s : bytes) : lang := (load_xml (fun t => t) decode_xml (new_lang [] []) s).1.
Definition loads (s : bytes) : bool := (load_xml (fun t => t) decode_xml (new_lang [] []) s).2.

(** What %#v prints for the strings of the tests. *)
Definition quoted (s : bytes) : bytes := B """" ++ s ++ B """".
(** v2/testunit/a.es.language, a.en.language, a.fr.language, errors.es.xml, errors.es.txt. *)
Definition a_es : bytes := B "<?xml version=""1.0"" encoding=""UTF-8""?>
<language id=""language-demo"" lang=""es"">
  <entry id=""entry1"">Bienvenido a</entry>
  <entry id=""entry2"">XCore</entry>
</language>
".
Definition a_en : bytes := B "<?xml version=""1.0"" encoding=""UTF-8""?>
<language id=""language-demo"" lang=""en"">
  <entry id=""entry1"">Welcome to</entry>
  <entry id=""entry2"">XCore</entry>
</language>
".
Definition a_fr : bytes := B "<?xml version=""1.0"" encoding=""UTF-8""?>
<language id=""language-demo"" lang=""fr"">
  <entry id=""entry1"">Bienvenue à</entry>
  <entry id=""entry2"">XCore</entry>
</language>
".
Definition errors_xml : bytes := B "<?xml version=""1.0"" encoding=""UTF-8""?>
<language id=""errors"" lang=""es"">
  <entry id=""panicerror"">Error crítico del sistema</entry>
  <entry id=""systemerror"">Error del sistema</entry>
  <entry id=""fileerror"">Error leyendo el archivo</entry>
</language>
".
Definition errors_txt : bytes := B "panicerror=Error crítico del sistema
systemerror=Error del sistema
fileerror=Error leyendo el archivo
".

(** ExampleNewXLanguage, lines 11-29. *)
Example ExampleNewXLanguage :
  lget (lset (new_lang (B "messages") (B "fr")) (B "panicerror") (B "Erreur grave dans le système")) (B "panicerror") =
  B "Erreur grave dans le système".
Proof. vm_compute. reflexivity. Qed.
(** ExampleNewXLanguageFromXMLFile, lines 31-50. *)
Example ExampleNewXLanguageFromXMLFile :
  map (fun f => lget (load f) (B "entry1") ++ B " " ++ lget (load f) (B "entry2")) [a_es; a_en; a_fr] =
  [B "Bienvenido a XCore"; B "Welcome to XCore"; B "Bienvenue à XCore"].
Proof. vm_compute. reflexivity. Qed.
(** TestXLanguage, lines 52-128: the same table by hand, from XML and from text. *)
Example TestXLanguage :
  let strings := [(B "panicerror", B "Error crítico del sistema"); (B "systemerror", B "Error del sistema");
                  (B "fileerror", B "Error leyendo el archivo")] in
  let manual := fold_left (fun l kv => lset l kv.1 kv.2) strings (new_lang (B "messages") (B "es")) in
  loads errors_xml = true /\ is_Some (new_from_string errors_txt) /\
  Forall (fun kv => lget manual kv.1 = kv.2 /\ lget (load errors_xml) kv.1 = kv.2 /\
                    (fun l => lget l kv.1) <$> new_from_string errors_txt = Some kv.2) strings.
Proof. vm_compute. split; [reflexivity|]. split; [eauto|]. repeat constructor. Qed.
(** TestXLanguageAssign, lines 130-208. *)
Example TestXLanguageAssign :
  let ops := [ LSet (B "panicerror") (B "System critical error"); LSet (B "systemerror") (B "System error");
               LSet (B "fileerror") (B "File error"); LSetName (B "errors"); LSetLanguage (B "es");
               LSet (B "noerror") (B "There is no error") ] in
  let l0 := fold_left (fun l o => (lstep (fun t => t) decode_xml quoted l o).1) ops (new_lang (B "messages") (B "es")) in
  let '(l1, ok) := load_string l0 errors_txt in
  let l2 := ldel l1 (B "noerror") in
  let texts := map_to_list (l_entries l2) in
  ok = true /\ lget l1 (B "panicerror") = B "Error crítico del sistema" /\ lget l1 (B "noerror") = B "There is no error" /\
  lget l2 (B "noerror") = [] /\ l_name l2 = B "errors" /\ l_tag l2 = B "es" /\
  lstring texts =
    B "xcore.XLanguage{fileerror:Error leyendo el archivo panicerror:Error crítico del sistema systemerror:Error del sistema}" /\
  lgostring quoted texts =
    B "#xcore.XLanguage{fileerror:""Error leyendo el archivo"" panicerror:""Error crítico del sistema"" systemerror:""Error del sistema""}".
Proof. vm_compute. repeat split. Qed.

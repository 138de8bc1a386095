(** * Property theorems about languages used by several goroutines (C106). *)
From Verif Require Import GoBase GoStrings LangModel LangSpec LangConc LangConcSpec LangConcProofs LangConcWitness.

(** ** C106 *)
(** What Get answers was there from the start or is written by a call made before the answer. *)
Theorem C106_no_invention : forall parse_tag decode l0 acts g h h1 t k v h2, lcexec parse_tag decode (linit l0) acts = Some (g, h) ->
  h = h1 ++ ERet t (KGet k) (LText v) :: h2 ->
  v = [] \/ l_entries l0 !! k = Some v \/ exists t' c, ECall t' c ∈ h1 /\ offers decode c k v.
Proof. exact no_invention. Qed.
Print Assumptions C106_no_invention.
(** Flat texts loaded side by side: in the end every entry is as one of the texts alone gives it. *)
Theorem C106_flat_loads : forall parse_tag decode l0 acts g h k, lcexec parse_tag decode (linit l0) acts = Some (g, h) ->
  all_calls (fun c => loads_flat c \/ reads_only c) h -> all_idle g ->
  (l_entries (lc_lang g) !! k = l_entries l0 !! k /\ forall t data, ECall t (KLoadString data) ∈ h -> alone data !! k = None) \/
  (exists t data v, ECall t (KLoadString data) ∈ h /\ alone data !! k = Some v /\ l_entries (lc_lang g) !! k = Some v).
Proof. exact flat_end. Qed.
Print Assumptions C106_flat_loads.
(** The loads are not atomic: the result is that of neither order, and half of a load is seen. *)
Theorem C106_flat_atomic_refuted : forall parse_tag decode, exists data1 data2 acts g h,
  lcexec parse_tag decode (linit (new_lang [] [])) acts = Some (g, h) /\ all_idle g /\
  all_calls (fun c => c = KLoadString data1 \/ c = KLoadString data2) h /\
  l_entries (lc_lang g) <> l_entries (load_string (load_string (new_lang [] []) data1).1 data2).1 /\
  l_entries (lc_lang g) <> l_entries (load_string (load_string (new_lang [] []) data2).1 data1).1.
Proof. exact loads_mix. Qed.
Print Assumptions C106_flat_atomic_refuted.
Theorem C106_half_seen_refuted : forall parse_tag decode, exists l0 data acts g h t m,
  lcexec parse_tag decode (linit l0) acts = Some (g, h) /\ all_calls (fun c => c = KLoadString data \/ c = KGetEntries) h /\
  ERet t KGetEntries (LTable m) ∈ h /\ m <> l_entries l0 /\ m <> l_entries (load_string l0 data).1.
Proof. exact load_half_seen. Qed.
Print Assumptions C106_half_seen_refuted.
(** Documents are loaded whole: the tables are at any time those of documents loaded one after the other. *)
Theorem C106_documents : forall parse_tag decode l0 acts g h, lcexec parse_tag decode (linit l0) acts = Some (g, h) ->
  all_calls (fun c => loads_doc c \/ reads_only c) h ->
  exists docs, (l_entries (lc_lang g), l_status (lc_lang g)) = load_docs (l_entries l0) (l_status l0) docs /\
    (forall d, d ∈ docs -> exists t data, ECall t (KLoadXML data) ∈ h /\ decode data = Some d) /\
    (forall t data d r, ERet t (KLoadXML data) r ∈ h -> decode data = Some d -> d ∈ docs).
Proof. exact docs_whole. Qed.
Print Assumptions C106_documents.
Theorem C106_documents_seen : forall parse_tag decode l0 acts g h h1 t m h2, lcexec parse_tag decode (linit l0) acts = Some (g, h) ->
  all_calls (fun c => loads_doc c \/ reads_only c) h -> h = h1 ++ ERet t KGetEntries (LTable m) :: h2 ->
  exists docs, m = (load_docs (l_entries l0) (l_status l0) docs).1 /\
    forall d, d ∈ docs -> exists t data, ECall t (KLoadXML data) ∈ h1 /\ decode data = Some d.
Proof. exact docs_seen_whole. Qed.
Print Assumptions C106_documents_seen.

(** Two loads and a reader between their lines. *)
Example C106_case :
  match lcexec (fun t => t) (fun _ => Some (XDoc (B "n") (B "fr") [(B "a", B "x", B "new"); (B "c", B "y", [])])) (linit (new_lang [] []))
    [LCall 1 (KLoadString text1); LCall 2 (KLoadString text2); LGo 2; LCall 3 (KGet (B "a")); LGo 1; LGo 3; LReturn 3; LGo 2; LGo 1; LGo 1; LGo 2;
     LCall 3 (KLoadXML []); LGo 3; LGo 3; LCall 4 KGetEntries; LGo 4; LGo 3; LReturn 4] with
  | Some (g, h) => map (lget (lc_lang g)) [B "a"; B "b"; B "c"] = [B "x"; B "1"; B "y"] /\ lget_status (lc_lang g) (B "a") = B "new" /\
      ERet 3 (KGet (B "a")) (LText (B "1")) ∈ h /\
      match last h with Some (ERet 4 KGetEntries (LTable m)) => map (lookup (M := table) (B "a" : bytes)) [m] = [Some (B "1")] | _ => False end
  | None => False
  end.
Proof. vm_compute. split_and!; try done. repeat constructor. Qed.

(** * Property theorems about pages in several languages (C120). *)
From Verif Require Import GoBase DatasetModel LangModel DatasetSpec TemplateModel TemplateSpec RenderSpec RenderProofs10 HoleSpec TransSpec TransProofs.

(** ** C120 *)
(** An execution has one page, of fixed words and of entries named in the templates; in every language it gives the translation of that page, and leaves the same data. *)
Theorem C120_page : forall F ord th n h t d, exists r : outcome (heap * list part),
  (forall h' page, r = Ok (h', page) -> entries_from th t page) /\
  forall langs lg, language_of langs h d lg -> execute F ord langs th n h t (Some d) = in_language lg r.
Proof. exact one_page_for_all. Qed.
Print Assumptions C120_page.
(** In every language the translation of the page is what the elements of the templates mean (C52), a ##name## its entry in this language. *)
Theorem C120_means : forall F ord langs th n h t d h' out lg, compiled th -> language_of langs h d lg -> execute F ord langs th n h t (Some d) = Ok (h', out) ->
  exists page, entries_from th t page /\ out = translation lg page /\
    forall langs' lg', language_of langs' h d lg' -> executes F ord langs' th h t d h' (translation lg' page).
Proof. exact page_means. Qed.
Print Assumptions C120_means.
(** Languages that agree on the entries named in the templates give the same text. *)
Theorem C120_only_named : forall F ord langs langs' th n h t d lg lg', language_of langs h d lg -> language_of langs' h d lg' ->
  (forall name, entry_of th t name -> spoken lg (Entry name) = spoken lg' (Entry name)) ->
  execute F ord langs th n h t (Some d) = execute F ord langs' th n h t (Some d).
Proof. exact only_named. Qed.
Print Assumptions C120_only_named.
(** An execution that ends in one language ends in every other, with the same data after it. *)
Theorem C120_same_end : forall F ord langs langs' th n h t d h' out lg lg', language_of langs h d lg -> language_of langs' h d lg' ->
  execute F ord langs th n h t (Some d) = Ok (h', out) -> exists out', execute F ord langs' th n h t (Some d) = Ok (h', out').
Proof. exact same_end. Qed.
Print Assumptions C120_same_end.
(** It panics in one language exactly if it panics in every other. *)
Theorem C120_same_panic : forall F ord langs langs' th n h t d lg lg', language_of langs h d lg -> language_of langs' h d lg' ->
  execute F ord langs th n h t (Some d) = Panic <-> execute F ord langs' th n h t (Some d) = Panic.
Proof. exact same_panic. Qed.
Print Assumptions C120_same_panic.
(** XLanguage.Set of an entry changes the places of that entry and nothing else. *)
Theorem C120_set : forall F ord langs th n h t d g name v, language_of langs h d (Some g) ->
  forall langs', language_of langs' h d (Some (lset g name v)) -> exists r : outcome (heap * list part),
    execute F ord langs th n h t (Some d) = in_language (Some g) r /\
    execute F ord langs' th n h t (Some d) = in_language None (match r with Ok (h', page) => Ok (h', map (fun p => match p with
      | Entry e => Fixed (if bool_decide (e = name) then v else spoken (Some g) (Entry e)) | Fixed s => Fixed s end) page) | Panic => Panic | NoFuel => NoFuel end).
Proof. exact set_entry. Qed.
Print Assumptions C120_set.
(** French, a language with one entry that looks like a field, and no language; the elements of the collection have a # of their own, which is not used. *)
Definition market : heap := list_to_map
  [(1%positive, ds [("c"%string, VRef 2); ("#"%string, VOther 0)]); (2%positive, OColl [Some 3%positive; Some 4%positive]);
   (3%positive, ds [("n"%string, VStr (B "pear")); ("#"%string, VOther 1)]); (4%positive, ds [("n"%string, VStr (B "fig"))])].
Definition french : lang := Lang (B "page") (B "fr") (list_to_map [(B "title", B "Fruits"); (B "fresh", B "frais")]) ∅.
Definition odd : lang := Lang (B "page") (B "xx") (list_to_map [(B "fresh", B "{{n}}")]) ∅.
Example C120_case : forall F, let run langs := text_of (run F ord0 langs "##title##:@@c:f@@[[f]] {{n}} ##fresh##;[[]]"%string market (Some 1%positive)) in
  map run [(fun k => match k with 0%nat => Some french | _ => Some odd end); (fun _ => Some odd); (fun _ => None)]
  = [Ok (B "Fruits: pear frais; fig frais;"); Ok (B ": pear {{n}}; fig {{n}};"); Ok (B ": pear ; fig ;")] /\
  let page := [Entry (B "title"); Fixed (B ": "); Fixed (B "pear"); Fixed (B " "); Entry (B "fresh"); Fixed (B "; "); Fixed (B "fig"); Fixed (B " "); Entry (B "fresh"); Fixed (B ";")] in
  map (fun lg => translation lg page) [Some french; Some odd; None] = [B "Fruits: pear frais; fig frais;"; B ": pear {{n}}; fig {{n}};"; B ": pear ; fig ;"].
Proof. intros F. split; vm_compute; reflexivity. Qed.

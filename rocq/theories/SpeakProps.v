(** * Property theorems about executions while the languages change (C121). *)
From Verif Require Import GoBase DatasetModel LangModel XmlModel DatasetSpec TemplateModel TemplateSpec RenderSpec RenderProofs10 HoleSpec TransSpec LangConc
  SpeakModel SpeakSpec SpeakProofs SpeakProofs2 SpeakProofs3 SpeakProofs4.

(** ** C121 *)
(** With languages that nobody changes, the execution is that of the other properties. *)
Theorem C121_alone : forall F ord th ls known n h t d, hear ls (s_execute F ord known th n h t d) = execute F ord (as_langs known ls) th n h t (Some d).
Proof. exact alone_speaks. Qed.
Print Assumptions C121_alone.
(** The goroutines come to an end, and none is held up before its end. *)
Theorem C121_ends : forall ls gs, Acc (flip hall_step) (ls, gs) /\
  ((forall s, ~ hall_step (ls, gs) s) -> Forall (fun g => match g with Speaks m => exists o, m = think o | Writes l => l = [] end) gs).
Proof. exact hall_stops. Qed.
Print Assumptions C121_ends.
(** The text of an execution that returns is the page of C120, each entry as it is at some moment of the execution, one after the other; the data after it are those of an execution in any language. *)
Theorem C121_page : forall F ord known th n h t d k T path i h' out, known k = true -> answers h d (B "#") (Some (VOther k)) -> hall_course T path ->
  (path 0).2 !! i = Some (Speaks (s_execute F ord known th n h t d)) -> (path T).2 !! i = Some (Speaks (Say (h', out))) ->
  exists page, entries_from th t page /\ (forall langs lg, language_of langs h d lg -> execute F ord langs th n h t (Some d) = Ok (h', translation lg page)) /\
    exists j, j <= T /\ during (history path) k 0 page j out.
Proof. exact speaks_page. Qed.
Print Assumptions C121_page.
(** It panics only if it panics in every language. *)
Theorem C121_panic : forall F ord known th n h t d k T path i langs lg, known k = true -> answers h d (B "#") (Some (VOther k)) -> hall_course T path ->
  (path 0).2 !! i = Some (Speaks (s_execute F ord known th n h t d)) -> (path T).2 !! i = Some (Speaks Break) ->
  language_of langs h d lg -> execute F ord langs th n h t (Some d) = Panic.
Proof. exact speaks_panic. Qed.
Print Assumptions C121_panic.
(** If the entries named in the templates keep their texts, the text is that of an execution alone. *)
Theorem C121_untouched : forall F ord known th n h t d k T path i h' out, known k = true -> answers h d (B "#") (Some (VOther k)) -> hall_course T path ->
  (path 0).2 !! i = Some (Speaks (s_execute F ord known th n h t d)) -> (path T).2 !! i = Some (Speaks (Say (h', out))) ->
  (forall m name, m < T -> entry_of th t name -> spoken (Some (history path m k)) (Entry name) = spoken (Some (history path 0 k)) (Entry name)) ->
  execute F ord (as_langs known (history path 0)) th n h t (Some d) = Ok (h', out).
Proof. exact speaks_untouched. Qed.
Print Assumptions C121_untouched.
(** Calls on other languages do not change it. *)
Theorem C121_other_languages : forall F ord parse_tag decode known th n h t d k T path i h' out, known k = true -> answers h d (B "#") (Some (VOther k)) -> hall_course T path ->
  (path 0).2 !! i = Some (Speaks (s_execute F ord known th n h t d)) -> (path T).2 !! i = Some (Speaks (Say (h', out))) ->
  Forall (fun g => match g with
    | Writes ws => exists calls, Forall (fun lc => lc.1 <> k) calls /\ ws = concat (map (fun lc => sections parse_tag decode lc.1 lc.2) calls)
    | Speaks _ => True end) (path 0).2 ->
  execute F ord (as_langs known (history path 0)) th n h t (Some d) = Ok (h', out).
Proof. exact speaks_others. Qed.
Print Assumptions C121_other_languages.
(** Though LoadXMLString changes all entries in one section, a page can show the old language and the new one. *)
Theorem C121_one_language_refuted : exists th t h d l data, built th /\ forall F ord parse_tag decode, faithful decode ->
  let run langs := text_of (execute F ord langs th 9 h t (Some d)) in
  run (as_langs (fun _ => true) (fun _ => l)) = Ok (B "good day") /\
  run (as_langs (fun _ => true) (fun _ => (load_xml parse_tag decode l data).1)) = Ok (B "bon jour") /\
  exists ls h', rtc hall_step (fun _ => l, [Speaks (s_execute F ord (fun _ => true) th 9 h t d); Writes (sections parse_tag decode 0 (KLoadXML data))])
    (ls, [Speaks (Say (h', B "good jour")); Writes []]).
Proof. exact page_mixed. Qed.
Print Assumptions C121_one_language_refuted.
(** A word set, deleted, or another word set, between two elements of a loop. *)
Example C121_case : forall F parse_tag decode,
  let m := s_execute F ord0 (fun _ => true) (page greeting).1 20 two_guests (page greeting).2 1 in
  let gs c := [Speaks m; Writes (sections parse_tag decode 0 c)] in
  map (fun c => text_in (play [0; 1; 0]%nat (fun _ => english, gs c))) [KSet (B "a") (B "bad"); KDel (B "a"); KSet (B "b") (B "x")] =
  [[Some (B "good Ana. bad Bo. "); None]; [Some (B "good Ana.  Bo. "); None]; [Some (B "good Ana. good Bo. "); None]].
Proof. exact greeting_case. Qed.
(** The word set in the language of the page, and in another one. *)
Example C121_other_case : forall F parse_tag decode,
  let m := s_execute F ord0 (fun _ => true) (page greeting).1 20 two_guests (page greeting).2 1 in
  map (fun l => text_in (play [0; 1; 0]%nat (fun _ => english, [Speaks m; Writes (sections parse_tag decode l (KSet (B "a") (B "bad")))]))) [0; 1]%nat =
  [[Some (B "good Ana. bad Bo. "); None]; [Some (B "good Ana. good Bo. "); None]].
Proof. exact others_case. Qed.

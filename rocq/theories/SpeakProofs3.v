(** * Executing templates while the languages change: a page in two languages. *)
From Verif Require Import GoBase GoStrings DatasetModel LangModel XmlModel DatasetSpec TemplateModel TemplateSpec RenderSpec RenderProofs10 HoleSpec TransSpec LangConc SpeakModel SpeakSpec.

(** The goroutines of the list make their steps one after the other. *)
Fixpoint play (sch : list nat) (s : (nat -> lang) * list goroutine) : (nat -> lang) * list goroutine :=
  match sch with
  | [] => s
  | i :: sch' => play sch' (match s.2 !! i with
      | Some (Speaks (Ask l name k)) => (s.1, <[i := Speaks (k (lget (s.1 l) name))]> s.2)
      | Some (Writes ((l, w) :: rest)) => (set_lang s.1 l (w (s.1 l)), <[i := Writes rest]> s.2)
      | _ => s
      end)
  end.
Lemma play_steps sch : forall s, rtc hall_step s (play sch s).
Proof.
  induction sch as [|i sch IH]; intros [ls gs]; [done|]. cbn [play fst snd]. destruct (gs !! i) as [g|] eqn:Hi; [|apply IH].
  destruct g as [m|l]; [destruct m as [a| | |l name k]|destruct l as [|[l w] rest]]; try apply IH; (eapply rtc_l; [|apply IH]); by econstructor.
Qed.
Definition two_words : string := "##a## ##b##".
Definition guest : heap := list_to_map [(1%positive, ds [("#"%string, VOther 0)])].
Definition english : lang := Lang (B "p") (B "en") (list_to_map [(B "a", B "good"); (B "b", B "day")]) ∅.
Definition document_fr : bytes := B "<language id='p' lang='fr'><entry id='a'>bon</entry><entry id='b'>jour</entry></language>".
Definition text_in (s : (nat -> lang) * list goroutine) : list (option bytes) :=
  map (fun g => match g with Speaks (Say (_, o)) => Some o | _ => None end) s.2.
Lemma page_mixed : exists th t h d l data, built th /\ forall F ord parse_tag decode, faithful decode ->
  let run langs := text_of (execute F ord langs th 9 h t (Some d)) in
  run (as_langs (fun _ => true) (fun _ => l)) = Ok (B "good day") /\
  run (as_langs (fun _ => true) (fun _ => (load_xml parse_tag decode l data).1)) = Ok (B "bon jour") /\
  exists ls h', rtc hall_step (fun _ => l, [Speaks (s_execute F ord (fun _ => true) th 9 h t d); Writes (sections parse_tag decode 0 (KLoadXML data))])
    (ls, [Speaks (Say (h', B "good jour")); Writes []]).
Proof.
  exists (page two_words).1, (page two_words).2, guest, 1%positive, english, document_fr. split; [apply page_built|]. intros F ord parse_tag decode Hf run.
  assert (Hd : decode document_fr = Some (XDoc (B "p") (B "fr") [(B "a", B "bon", []); (B "b", B "jour", [])])).
  { specialize (Hf document_fr). assert (E : unmarshal document_fr = XOk (XDoc (B "p") (B "fr") [(B "a", B "bon", []); (B "b", B "jour", [])])) by (vm_compute; reflexivity).
    rewrite E in Hf. exact Hf. }
  split; [vm_compute; reflexivity|]. split.
  { unfold run, load_xml. rewrite Hd. vm_compute. reflexivity. }
  unfold sections, atoms. rewrite Hd.
  match goal with |- exists ls h', rtc hall_step ?s _ => pose proof (play_steps [0; 1; 1; 1; 0]%nat s) as H; set (s0 := s) in * end.
  destruct (play [0; 1; 1; 1; 0]%nat s0) as [ls gs] eqn:E. exists ls. 
  assert (G : map (fun g => match g with Speaks (Say (_, o)) => Some o | Writes [] => None | _ => Some [] end) gs = [Some (B "good jour"); None]).
  { change gs with (ls, gs).2. rewrite <- E. unfold s0, finish. rewrite Hd. vm_compute. reflexivity. }
  destruct gs as [|g1 [|g2 [|]]]; try discriminate G. cbn [map] in G. injection G as G1 G2.
  destruct g1 as [[[h' o]| | |]|[|]]; try discriminate G1. injection G1 as ->. destruct g2 as [[[h2 o]| | |]|[|]]; try discriminate G2. by exists h'.
Qed.
(** Two elements in a loop, the word set anew between them; another word is not in the page. *)
Definition two_guests : heap := list_to_map
  [(1%positive, ds [("#"%string, VOther 0); ("c"%string, VRef 2)]); (2%positive, OColl [Some 3%positive; Some 4%positive]);
   (3%positive, ds [("n"%string, VStr (B "Ana"))]); (4%positive, ds [("n"%string, VStr (B "Bo"))])].
Definition greeting : string := "@@c:g@@[[g]]##a## {{n}}. [[]]".
Lemma greeting_case : forall F parse_tag decode,
  let m := s_execute F ord0 (fun _ => true) (page greeting).1 20 two_guests (page greeting).2 1 in
  let gs c := [Speaks m; Writes (sections parse_tag decode 0 c)] in
  map (fun c => text_in (play [0; 1; 0]%nat (fun _ => english, gs c))) [KSet (B "a") (B "bad"); KDel (B "a"); KSet (B "b") (B "x")] =
  [[Some (B "good Ana. bad Bo. "); None]; [Some (B "good Ana.  Bo. "); None]; [Some (B "good Ana. good Bo. "); None]].
Proof. intros F parse_tag decode m gs. vm_compute. reflexivity. Qed.

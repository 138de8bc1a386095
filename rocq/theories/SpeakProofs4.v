(** * Executing templates while other languages change (C121). *)
From Verif Require Import GoBase DatasetModel LangModel XmlModel DatasetSpec TemplateModel TemplateSpec RenderSpec RenderProofs10 HoleSpec TransSpec LangConc
  SpeakModel SpeakSpec SpeakProofs SpeakProofs2 SpeakProofs3.
From Coq Require Import Lia.

(** Nobody is going to write language [k]. *)
Definition spares (k : nat) (g : goroutine) : Prop := match g with Writes l => Forall (fun w => w.1 <> k) l | Speaks _ => True end.
Lemma spares_step k ls gs ls' gs' : Forall (spares k) gs -> hall_step (ls, gs) (ls', gs') -> Forall (spares k) gs' /\ ls' k = ls k.
Proof.
  intros Hf Hs. inversion Hs; subst.
  - split; [|done]. apply Forall_insert; done.
  - assert (Hw : spares k (Writes ((l, w) :: rest))) by (eapply Forall_lookup_1; eauto). simpl in Hw. apply Forall_cons in Hw as [H1 H2].
    split; [by apply Forall_insert|]. unfold set_lang. rewrite decide_False; [done|]. intros ->. by apply H1.
Qed.
Lemma spares_course k T path : hall_course T path -> Forall (spares k) (path 0).2 -> forall m, m <= T -> Forall (spares k) (path m).2 /\ history path m k = history path 0 k.
Proof.
  intros Hc H0 m. induction m as [|m IH]; intros Hm; [done|]. destruct IH as [IH1 IH2]; [lia|]. pose proof (Hc m ltac:(lia)) as Hs.
  unfold history in *. destruct (path m) as [ls gs], (path (S m)) as [ls' gs']. simpl in *. destruct (spares_step k _ _ _ _ IH1 Hs) as [H1 H2].
  split; [done|congruence].
Qed.
Lemma speaks_apart F ord known th n h t d k T path i h' out : known k = true -> answers h d (B "#") (Some (VOther k)) -> hall_course T path ->
  (path 0).2 !! i = Some (Speaks (s_execute F ord known th n h t d)) -> (path T).2 !! i = Some (Speaks (Say (h', out))) ->
  Forall (fun g => match g with Writes l => Forall (fun w => w.1 <> k) l | Speaks _ => True end) (path 0).2 ->
  execute F ord (as_langs known (history path 0)) th n h t (Some d) = Ok (h', out).
Proof.
  intros Hk Ha Hc H0 HT Hf. eapply speaks_untouched; eauto. intros m name Hm _. destruct (spares_course k T path Hc Hf m) as [_ ->]; [lia|done].
Qed.
(** The sections of a call are about its language only. *)
Lemma sections_apart parse_tag decode l k c : l <> k -> Forall (fun w => w.1 <> k) (sections parse_tag decode l c).
Proof. intros H. unfold sections. apply Forall_app. split; [|by repeat constructor]. apply Forall_map. apply Forall_true. done. Qed.
Lemma speaks_others F ord parse_tag decode known th n h t d k T path i h' out : known k = true -> answers h d (B "#") (Some (VOther k)) -> hall_course T path ->
  (path 0).2 !! i = Some (Speaks (s_execute F ord known th n h t d)) -> (path T).2 !! i = Some (Speaks (Say (h', out))) ->
  Forall (fun g => match g with
    | Writes ws => exists calls, Forall (fun lc => lc.1 <> k) calls /\ ws = concat (map (fun lc => sections parse_tag decode lc.1 lc.2) calls)
    | Speaks _ => True end) (path 0).2 ->
  execute F ord (as_langs known (history path 0)) th n h t (Some d) = Ok (h', out).
Proof.
  intros Hk Ha Hc H0 HT Hf. eapply speaks_apart; eauto. eapply Forall_impl; [exact Hf|]. intros [m|ws]; [done|]. intros (calls & Hcs & ->).
  induction Hcs as [|[l c] calls Hl _ IH]; simpl; [constructor|]. apply Forall_app. split; [by apply sections_apart|done].
Qed.
Lemma others_case : forall F parse_tag decode,
  let m := s_execute F ord0 (fun _ => true) (page greeting).1 20 two_guests (page greeting).2 1 in
  map (fun l => text_in (play [0; 1; 0]%nat (fun _ => english, [Speaks m; Writes (sections parse_tag decode l (KSet (B "a") (B "bad")))]))) [0; 1]%nat =
  [[Some (B "good Ana. bad Bo. "); None]; [Some (B "good Ana. good Bo. "); None]].
Proof. intros. vm_compute. done. Qed.

(** * Property theorems about templates that are cloned while they are in use (C117). *)
From Verif Require Import GoBase DatasetModel LangModel TemplateModel TemplateSpec RenderSpec RenderProofs10 CopyModel CopySpec CopyProofs4 CopyProofs5.

(** ** C117 *)
(** The accesses of a goroutine that is alone add up to Execute ... *)
Theorem C117_alone : forall F ord langs th n h t data,
  talone (t_execute F ord langs n h t data) th = ('(h1, out) <-! execute F ord langs th n h t data; Ok (th, (h1, out))).
Proof. exact (fun F ord langs th n h t data => alone_execute F ord langs th n h t data). Qed.
Print Assumptions C117_alone.
(** ... and to Clone ... *)
Theorem C117_alone_clone : forall (o : gmap bytes loc -> list (bytes * loc)) n t th, talone (t_clone (fun _ => o) n t) th = tclone (fun _ => o) n th t.
Proof. exact (fun o n t th => alone_clone o n t th). Qed.
Print Assumptions C117_alone_clone.
(** ... and goroutines that make accesses in turn come to an end in every order. *)
Theorem C117_ends : forall (th : theap) (ps : list (tact answer)),
  Acc (flip tstep) (th, ps) /\ ((forall s, ~ tstep (th, ps) s) -> Forall (fun p => exists o, p = tlift o) ps).
Proof. exact (fun th ps => copy_stops th ps). Qed.
Print Assumptions C117_ends.
(** When all have ended, every template executes as it did at the beginning, and every clone as the
    template it was made from, with any data. *)
Theorem C117_copies : forall F ord langs th n jobs th' ps, closed th -> consistent th -> Forall (allowed th n) jobs ->
  rtc tstep (th, map (t_job F ord langs n) jobs) (th', ps) -> Forall (fun p => exists o, p = tlift o) ps ->
  (forall F' ord' langs' x, is_Some (th !! x) -> as_good F' ord' langs' th' th x x) /\
  (forall i held h cs held' texts, jobs !! i = Some (Script held h cs) -> ps !! i = Some (TRet (Did held' texts)) ->
    forall F' ord' langs', Forall2 (as_good F' ord' langs' th' th) held' (models held cs)).
Proof. exact (fun F ord langs th n jobs th' ps Hc Hs => copies F ord langs th Hc Hs n jobs th' ps). Qed.
Print Assumptions C117_copies.
(** A goroutine whose templates call their own boxes only sees the texts it would see alone. *)
Theorem C117_texts : forall F ord langs th n jobs th' ps i held h cs, closed th -> consistent th -> compiled th -> Forall (allowed th n) jobs ->
  rtc tstep (th, map (t_job F ord langs n) jobs) (th', ps) -> jobs !! i = Some (Script held h cs) ->
  (forall t, t ∈ held -> self_contained th t) -> in_turn F ord langs th n held h cs <> NoFuel ->
  exists p, ps !! i = Some p /\ forall o, p = tlift o ->
    match in_turn F ord langs th n held h cs with Ok l => exists held', o = Ok (Did held' l) | _ => o = Panic end.
Proof. exact (fun F ord langs th n jobs th' ps i held h cs Hc Hs => texts F ord langs th Hc Hs n jobs th' ps i held h cs). Qed.
Print Assumptions C117_texts.
(** A lookup does not panic; it finds nothing, or a version of what the template or one around it has under the name. *)
Theorem C117_lookup : forall F ord langs th n jobs th' ps i t name o, closed th -> consistent th -> Forall (allowed th n) jobs ->
  rtc tstep (th, map (t_job F ord langs n) jobs) (th', ps) -> jobs !! i = Some (Lookup t name) -> ps !! i = Some (tlift o) ->
  (rooted th -> (size (dom th) <= n)%nat -> o <> NoFuel) /\ o <> Panic /\
  forall a, o = Ok a -> exists r, a = Saw r /\ forall y, r = Some y -> exists x, hears th name t (Some x) /\
    (Forall (fun p => exists o, p = tlift o) ps -> forall F' ord' langs', as_good F' ord' langs' th' th y x).
Proof. exact (fun F ord langs th n jobs th' ps i t name o Hc Hs => lookups F ord langs th Hc Hs n jobs th' ps i t name o). Qed.
Print Assumptions C117_lookup.
(** The bound on the nesting is no restriction. *)
Theorem C117_fits : forall th, closed th -> consistent th -> rooted th -> forall n t, (size (dom th) <= n)%nat -> is_Some (th !! t) -> fits th n t.
Proof. exact (fun th Hc Hs Hr n t => fits_all th Hc Hs Hr n t). Qed.
Print Assumptions C117_fits.
(** Two goroutines that clone the same template and execute each its own clone: one loses a text. *)
Theorem C117_lost_refuted : exists th t, built th /\ allowed th 30 (Script [t] ∅ [Copy 0 tord0; Show 1 None]) /\ forall F langs,
  in_turn F ord0 langs th 30 [t] ∅ [Copy 0 tord0; Show 1 None] = Ok [B "<xy>"] /\
  exists th' held1 held2, rtc tstep (th, map (t_job F ord0 langs 30) [Script [t] ∅ [Copy 0 tord0; Show 1 None]; Script [t] ∅ [Copy 0 tord0; Show 1 None]])
    (th', [TRet (Did held1 [B "<xy>"]); TRet (Did held2 [B "<x>"])]).
Proof. exact lost. Qed.
Print Assumptions C117_lost_refuted.
(** An execution while another goroutine clones a template: a box is taken from the wrong template. *)
Theorem C117_wrong_refuted : exists th t x, built th /\ Forall (allowed th 30) [Script [x] ∅ [Copy 0 tord0]; Script [t] ∅ [Show 0 None]] /\ forall F langs,
  in_turn F ord0 langs th 30 [t] ∅ [Show 0 None] = Ok [B "<xy>"] /\
  exists th' held1 held2, rtc tstep (th, map (t_job F ord0 langs 30) [Script [x] ∅ [Copy 0 tord0]; Script [t] ∅ [Show 0 None]])
    (th', [TRet (Did held1 []); TRet (Did held2 [B "<xz>"])]).
Proof. exact wrong. Qed.
Print Assumptions C117_wrong_refuted.
(** A template as in [C117_texts]. *)
Example C117_case : built (page owned).1 /\ allowed (page owned).1 30 (copy_and_show owned) /\ self_contained (page owned).1 (page owned).2 /\
  forall F langs, in_turn F ord0 langs (page owned).1 30 [(page owned).2] ∅ [Copy 0 tord0; Show 1 None] = Ok [B "<xy>"].
Proof. exact own_case. Qed.

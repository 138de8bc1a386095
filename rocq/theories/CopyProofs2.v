(** * Looking up and executing templates while others clone them (C117). *)
From Verif Require Import GoBase GoStrings GoStringsProofs DatasetModel LangModel DatasetSpec TemplateModel TemplateSpec TemplateProofs5 RenderSpec RenderProofs
  CopyModel CopySpec CopyProofs.
Local Open Scope Z_scope.

Section Looking.
  Context (th : theap).
  Notation safe := (safe th).
  Notation inv := (inv th).
  (** ** GetTemplate *)
  Lemma up_ok Ef Eo y x next w (Phi : option loc -> gmap loc tmpl -> world -> Prop) : known w y x ->
    (forall w', later w w' -> inv w' -> Phi None ∅ w') ->
    (forall w' O f g, later w w' -> inv w' -> th !! x = Some O -> t_father O = Some f -> known w' g f -> safe Ef Eo (next g) ∅ w' Phi) ->
    safe Ef Eo (t_up y next) ∅ w Phi.
  Proof.
    intros Hk Hn Hs. unfold t_up. apply safe_bind. eapply safe_field; [exact Hk|]. intros w1 Y1 L1 I1 _ HY1.
    destruct (t_father Y1) as [f1|] eqn:E1; [|by apply Hn]. assert (Hk1 : known w1 y x) by (by eapply known_later).
    apply safe_bind. eapply safe_field; [exact Hk1|]. intros w2 Y2 L2 I2 _ HY2.
    destruct (proj2 (proj2 L2) y Y1 Y2 HY1 HY2) as [g Eg]; [by rewrite E1|]. rewrite Eg.
    destruct (proj1 (proj2 I2) y Y2 HY2) as (O & HO & _ & Hf & _). assert (Er : w_rho w2 y = x) by (by eapply (known_later w1 w2)). rewrite Er in HO.
    destruct Hf as [Hf|Hf]; [congruence|]. rewrite Eg in Hf. unfold right_father in Hf. destruct (t_father O) as [f|] eqn:Ef'; [|done].
    eapply (Hs w2 O f g); [by eapply later_trans|done..].
  Qed.
  Definition heard (name : bytes) (x : loc) (r : option loc) (w : world) : Prop :=
    match r with None => True | Some z => exists x0, hears th name x (Some x0) /\ ver w z x0 end.
  (** There are less than [n] templates around [x]. *)
  Fixpoint rises (n : nat) (x : loc) : Prop :=
    match n with O => False | S n' => forall X f, th !! x = Some X -> t_father X = Some f -> rises n' f end.
  Lemma t_get_hears Ef (Eo : Prop) n name : forall y x w, known w y x -> (~ rises n x -> Eo) -> safe Ef Eo (t_get n y name) ∅ w (fun r K' w' => K' = ∅ /\ heard name x r w').
  Proof.
    induction n as [|n IH]; intros y x w Hk Hn; [split; [apply Hn; intros []|done]|]. cbn [t_get]. apply safe_bind. eapply safe_field; [exact Hk|]. intros w1 Y1 L1 I1 _ HY1.
    assert (Hup : forall w', known w' y x -> safe Ef Eo (t_up y (fun z => t_get n z name)) ∅ w' (fun r K' w' => K' = ∅ /\ heard name x r w')).
    { intros w' Hk'. eapply up_ok; [exact Hk'|done|]. intros w2 O f g L2 I2 HO Hf Hg. eapply (safe_weaken th Ef Eo); [done|done| |apply IH; [exact Hg|intros Hr; apply Hn; intros H; by eapply Hr, H]].
      intros r K' w3 _ [-> Hr]. split; [done|]. destruct r as [z|]; [|done]. destruct Hr as (x0 & Hx0 & Hv). exists x0. split; [|done]. by eapply hr_up. }
    assert (Hk1 : known w1 y x) by (by eapply known_later).
    destruct (t_subs Y1) as [m|]; [|by apply Hup]. apply safe_bind. eapply safe_field; [exact Hk1|]. intros w2 Y2 L2 I2 _ HY2.
    assert (Hk2 : known w2 y x) by (by eapply known_later).
    destruct (t_subs Y2 ≫= _) as [z|] eqn:Ez; [|by apply Hup]. cbn. split; [done|].
    destruct (proj1 (proj2 I2) y Y2 HY2) as (O & HO & Hs & _). rewrite (proj2 Hk2) in HO. destruct Hs as [Hs|Hs]; [by rewrite Hs in Ez|].
    specialize (Hs name). unfold subs_of in Hs at 1. destruct (t_subs Y2) as [m2|]; [|done]. cbn in Ez. rewrite Ez in Hs.
    destruct (subs_of O !! name) as [x0|] eqn:Ex; [|done]. exists x0. split; [|done]. by eapply hr_here.
  Qed.
  Lemma t_get_none Ef name : forall n y x w, known w y x -> get_template n th x name = Ok None ->
    safe Ef False (t_get n y name) ∅ w (fun r K' w' => K' = ∅ /\ r = None).
  Proof.
    induction n as [|n IH]; intros y x w Hk Hg; [done|]. cbn [t_get]. cbn [get_template] in Hg.
    assert (Hup : forall w', known w' y x -> safe Ef False (t_up y (fun z => t_get n z name)) ∅ w' (fun r K' w' => K' = ∅ /\ r = None)).
    { intros w' Hk'. eapply up_ok; [exact Hk'|done|]. intros w2 O f g L2 I2 HO Hf Hkg. apply (IH g f); [done|]. rewrite HO in Hg. rewrite Hf in Hg. by destruct (t_subs O ≫= _). }
    apply safe_bind. eapply safe_field; [exact Hk|]. intros w1 Y1 L1 I1 _ HY1. assert (Hk1 : known w1 y x) by (by eapply known_later).
    destruct (t_subs Y1) as [m|]; [|by apply Hup]. apply safe_bind. eapply safe_field; [exact Hk1|]. intros w2 Y2 L2 I2 _ HY2.
    assert (Hk2 : known w2 y x) by (by eapply known_later).
    destruct (t_subs Y2 ≫= _) as [z|] eqn:Ez; [|by apply Hup]. exfalso.
    destruct (proj1 (proj2 I2) y Y2 HY2) as (O & HO & Hs & _). rewrite (proj2 Hk2) in HO. destruct Hs as [Hs|Hs]; [by rewrite Hs in Ez|].
    specialize (Hs name). unfold subs_of in Hs at 1. destruct (t_subs Y2) as [m2|]; [|done]. cbn in Ez. rewrite Ez in Hs.
    destruct (subs_of O !! name) as [x0|] eqn:Ex; [|done]. rewrite HO in Hg. unfold subs_of in Ex. destruct (t_subs O); [|done]. cbn in Hg. by rewrite Ex in Hg.
  Qed.
  Lemma t_get_own Ef Eo name n y x w O x0 : ver w y x -> th !! x = Some O -> subs_of O !! name = Some x0 ->
    safe Ef Eo (t_get (S n) y name) ∅ w (fun r K' w' => K' = ∅ /\ exists z, r = Some z /\ ver w' z x0).
  Proof.
    intros Hv HO Hx. cbn [t_get]. apply safe_bind. eapply safe_field; [apply Hv|]. intros w1 Y1 L1 I1 _ HY1. assert (Hv1 : ver w1 y x) by (by eapply ver_later).
    destruct (ver_right th w1 y x Y1 I1 Hv1 HY1) as (O' & HO' & _ & Hs & _). assert (O' = O) as -> by congruence. pose proof (Hs name) as Hs1. rewrite Hx in Hs1.
    destruct (t_subs Y1) as [m|] eqn:Em; [|unfold subs_of in Hs1; by rewrite Em in Hs1]. apply safe_bind. eapply safe_field; [apply Hv1|]. intros w2 Y2 L2 I2 _ HY2.
    destruct (ver_const w1 w2 y x Y1 Y2 L2 Hv1 HY1 HY2) as [_ E2]. rewrite E2, Em. cbn. unfold subs_of in Hs1. rewrite Em in Hs1.
    destruct (m !! name) as [z|] eqn:Ez; [|done]. split; [done|]. exists z. split; [done|]. by eapply ver_later.
  Qed.

  (** ** Results *)
  Definition tsim {A C} (p : tact A) (o : outcome C) (w : world) (R : world -> A -> C -> Prop) : Prop :=
    o <> NoFuel -> safe (o = Panic) False p ∅ w (fun a K' w' => K' = ∅ /\ exists b, o = Ok b /\ R w' a b).
  Notation is := (fun (_ : world) a b => a = b).
  Lemma tsim_bind {A C D E} (p : tact A) (o : outcome C) w R (f : A -> tact D) (g : C -> outcome E) Q : tsim p o w R ->
    (forall w' a b, later w w' -> R w' a b -> tsim (f a) (g b) w' Q) -> tsim (tbind p f) (obind o g) w Q.
  Proof.
    intros Hp Hf Ho. apply safe_bind. destruct o as [b| |]; cbn in *; [| |done].
    - eapply safe_weaken; [| | |apply Hp; done]; [done|done|]. intros a K' w' L' (-> & b' & [= <-] & HR). by apply (Hf w' a b L' HR).
    - eapply safe_weaken; [| | |apply Hp; done]; [done|done|]. intros a K' w' L' (-> & b' & [=] & HR).
  Qed.
  Lemma tsim_ret {A C} (a : A) (b : C) w (R : world -> A -> C -> Prop) : R w a b -> tsim (TRet a) (Ok b) w R.
  Proof. intros H _. cbn. split; [done|]. by exists b. Qed.
  Lemma tsim_lift {A} (o : outcome A) w : tsim (tlift o) o w is.
  Proof. intros Ho. destruct o; cbn; [|done|done]. split; [done|]. by eexists. Qed.
  Lemma tsim_fail {A C} w (R : world -> A -> C -> Prop) : tsim TFail Panic w R.
  Proof. by intros _. Qed.
  Lemma tsim_out {A C} p w (R : world -> A -> C -> Prop) : tsim p NoFuel w R.
  Proof. by intros []. Qed.

  Context (S : loc -> Prop) (Hclosed : closed th).
  Definition good (x : loc) (name : bytes) : Prop := forall x0, visible th x name (Some x0) -> (exists O, th !! x = Some O /\ subs_of O !! name = Some x0) /\ S x0.
  Definition ans (w : world) (r r' : option loc) : Prop :=
    match r, r' with None, None => True | Some z, Some z0 => ver w z z0 /\ S z0 | _, _ => False end.
  Lemma get_fine n : forall x name, is_Some (th !! x) -> get_template n th x name <> Panic.
  Proof.
    induction n as [|n IH]; intros x name [X HX]; [done|]. cbn. rewrite HX. destruct (t_subs X ≫= _); [done|]. destruct (t_father X) as [f|] eqn:E; [|done].
    apply IH. by eapply (proj2 Hclosed).
  Qed.
  Lemma get_sim n y x name w : is_Some (th !! x) -> ver w y x -> good x name -> tsim (t_get n y name) (get_template n th x name) w ans.
  Proof.
    intros Hd Hv Hg Ho. destruct (get_template n th x name) as [[x0|]| |] eqn:E; [| | |done].
    - assert (Hvis : visible th x name (Some x0)) by (apply get_template_visible; by exists n).
      destruct (Hg x0 Hvis) as ((O & HO & Hx) & HS). destruct n as [|n]; [done|].
      eapply safe_weaken; [| | |eapply (t_get_own _ _ name n y x w O x0 Hv HO Hx)]; [done|done|]. intros r K' w' _ (-> & z & -> & Hz). split; [done|]. by exists (Some x0).
    - eapply safe_weaken; [| | |eapply (t_get_none _ name n y x w (proj1 Hv) E)]; [done|done|]. intros r K' w' _ (-> & ->). split; [done|]. by exists None.
    - by destruct (get_fine n x name Hd).
  Qed.
  (** ** Execute *)
  Section Body.
    Context (F : golib) (ord : heap -> gmap bytes value -> list (bytes * value)) (n : nat) (lg : option lang).
    Context (tinj : heap * option (list loc) -> loc -> tact (heap * option (list loc) * bytes)).
    Context (inj : heap * option (list loc) -> loc -> outcome (heap * option (list loc) * bytes)).
    Context (Hinj : forall w st y x, ver w y x -> S x -> tsim (tinj st y) (inj st x) w is).
    Context (y x : loc) (Hx : is_Some (th !! x)).
    Lemma run_on_sim w st z z0 : ver w z z0 -> S z0 -> tsim (t_run_on tinj st z) (run_on inj st z0) w is.
    Proof. intros Hv HS. unfold t_run_on, run_on. eapply tsim_bind; [by apply Hinj|]. intros w' [st1 out] ? L <-. by apply tsim_ret. Qed.
    Lemma run_opt_sim w st r r' : ans w r r' -> tsim (t_run_opt tinj st r) (run_opt inj st r') w is.
    Proof. intros H. destruct r, r'; try done; [by apply run_on_sim; apply H|by apply tsim_ret]. Qed.
    Lemma names_sim names : forall w, ver w y x -> (forall nm, nm ∈ names -> good x nm) -> tsim (t_names n y names) (try_names th n x names) w ans.
    Proof.
      induction names as [|a names IH]; intros w Hv Hg; cbn; [by apply tsim_ret|]. eapply tsim_bind; [apply get_sim; [done|done|apply Hg; by left]|].
      intros w' r r' L Hr. destruct r as [z|], r' as [z0|]; try done; [by apply tsim_ret|]. apply IH; [by eapply ver_later|]. intros nm Hnm. apply Hg. by right.
    Qed.
    Lemma inner_sim {A} w h sc d z z0 (k : (heap * option (list loc)) * bytes -> option (list loc) -> A) : ver w z z0 -> S z0 ->
      tsim (sc1 <~ tlift (spush sc d); '(st2, out) <~ tinj (h, sc1) z; sc3 <~ tlift (spop st2.2); TRet (k (st2, out) sc3))
           (sc1 <-! spush sc d; '(st2, out) <-! inj (h, sc1) z0; sc3 <-! spop st2.2; Ok (k (st2, out) sc3)) w is.
    Proof.
      intros Hv HS. eapply tsim_bind; [apply tsim_lift|]. intros w1 sc1 ? L1 <-. eapply tsim_bind; [apply Hinj; [by eapply ver_later|done]|].
      intros w2 [st2 out] ? L2 <-. eapply tsim_bind; [apply tsim_lift|]. intros w3 sc3 ? L3 <-. by apply tsim_ret.
    Qed.
    Lemma reference_sim w st xid : ver w y x ->
      match xid with [_; _; prefix] => forall v, good x (prefix ++ v) | _ => good x (match xid with a :: _ => a | [] => [] end) end ->
      tsim (t_reference F ord n tinj st y xid) (do_reference F ord th n inj st x xid) w is.
    Proof.
      intros Hv Hg. unfold t_reference, do_reference.
      assert (Hgen : forall template, good x template -> tsim
        (r <~ t_get n y template; match r with None => TRet (st, []) | Some subt => t_run_on tinj st subt end)
        (r <-! lookup_template th n x template; match r with None => Ok (st, []) | Some subt => run_on inj st subt end) w is).
      { intros template Ht. eapply tsim_bind; [by apply get_sim|]. intros w' [z|] [z0|] L Hz; try done; [by apply run_on_sim; apply Hz|by apply tsim_ret]. }
      destruct xid as [|a [|fd [|prefix [|e xid]]]]; [by apply Hgen|by apply Hgen| | |by apply Hgen].
      - eapply tsim_bind; [by apply get_sim|]. intros w' [z|] [z0|] L Hz; try done; [|by apply tsim_ret]. destruct Hz as [Hvz HSz].
        eapply tsim_bind; [apply tsim_lift|]. intros w1 v ? L1 <-. assert (Hvz1 : ver w1 z z0) by (by eapply ver_later).
        destruct (v ≫= as_dataset st.1) as [d|]; [|by apply run_on_sim].
        by apply (inner_sim w1 st.1 st.2 d z z0 (fun q sc3 => ((q.1.1, sc3), [q.2]))).
      - eapply tsim_bind; [apply tsim_lift|]. intros w1 v ? L1 <-. eapply tsim_bind; [apply names_sim; [by eapply ver_later|]|].
        + intros nm Hnm. apply elem_of_cons in Hnm as [->|Hnm]; [apply Hg|]. apply elem_of_list_singleton in Hnm as ->. rewrite <- (app_nil_r prefix). apply Hg.
        + intros w2 r r' L2 Hr. by apply run_opt_sim.
    Qed.
    Lemma loop_sim subid cl : (forall v, good x (dotted subid v)) -> forall k i st w z z0, ver w y x -> ver w z z0 -> S z0 ->
      tsim (t_loop n tinj k i st y subid z cl) (do_loop th n inj k i st x subid z0 cl) w is.
    Proof.
      intros Hg k. induction k as [|k IH]; intros i st w z z0 Hv Hz HS; cbn [t_loop do_loop]; [apply tsim_out|].
      eapply tsim_bind; [apply tsim_lift|]. intros w1 c ? L1 <-. assert (Hv1 : ver w1 y x) by (by eapply ver_later).
      destruct (bool_decide (i < c)); [|by apply tsim_ret].
      eapply tsim_bind; [apply names_sim; [done|]|].
      { assert (Hif : forall (b : bool) s nm, nm ∈ (if b then [dot subid s] else []) -> good x nm) by (intros [] s nm Hnm; [apply elem_of_list_singleton in Hnm as ->; apply Hg|by apply elem_of_nil in Hnm]).
        intros nm [Hnm|[Hnm|[Hnm|Hnm]%elem_of_app]%elem_of_app]%elem_of_app; [apply elem_of_list_singleton in Hnm as ->; apply Hg|by eapply Hif..]. }
      intros w2 r r' L2 Hr. assert (Hz2 : ver w2 z z0) by (eapply ver_later; [|exact Hz]; by eapply later_trans). assert (Hv2 : ver w2 y x) by (by eapply ver_later).
      eapply tsim_bind; [apply tsim_lift|]. intros w3 e ? L3 <-. destruct e as [[d|]|]; try apply tsim_fail.
      eapply tsim_bind; [apply tsim_lift|]. intros w4 h1 ? L4 <-.
      eapply tsim_bind; [apply tsim_lift|]. intros w5 sc1 ? L5 <-.
      assert (L25 : later w2 w5) by (do 2 (eapply later_trans; [eassumption|]); done).
      eapply tsim_bind; [apply Hinj; [|]; destruct r, r'; try done; try (eapply ver_later; [exact L25|]; try done; apply Hr); apply Hr|]. intros w6 [st2 out] ? L6 <-.
      eapply tsim_bind; [apply tsim_lift|]. intros w7 sc3 ? L7 <-.
      assert (L27 : later w2 w7) by (do 2 (eapply later_trans; [eassumption|]); done).
      eapply tsim_bind; [apply IH; [by eapply (ver_later w2 w7)|by eapply (ver_later w2 w7)|done]|]. intros w8 [st4 outs] ? L8 <-. by apply tsim_ret.
    Qed.
    Lemma range_sim w st data : ver w y x -> good x (two_ids data).2 -> (forall v, good x (dotted (two_ids data).2 v)) ->
      tsim (t_range n tinj st y data) (do_range th n inj st x data) w is.
    Proof.
      intros Hv Hg1 Hg2. unfold t_range, do_range. destruct (two_ids data) as [subdata subid]. cbn [snd] in *.
      eapply tsim_bind; [by apply get_sim|]. intros w1 r r' L1 Hr. destruct r as [z|], r' as [z0|]; try done; [|destruct (st.2); by apply tsim_ret].
      destruct Hr as [Hz HS]. destruct (st.2) as [xs|] eqn:Est; [|by apply tsim_ret].
      eapply tsim_bind; [apply tsim_lift|]. intros w2 cl ? L2 <-. eapply tsim_bind; [apply tsim_lift|]. intros w3 c ? L3 <-.
      assert (L13 : later w1 w3) by (by eapply later_trans). assert (Hz3 : ver w3 z z0) by (by eapply ver_later).
      assert (Hv3 : ver w3 y x) by (eapply ver_later; [|exact Hv]; by eapply later_trans).
      assert (Hnone : tsim (tmp <~ t_names n y [dot subid (B "none")]; t_run_on tinj st (match tmp with Some x => x | None => z end))
        (tmp <-! try_names th n x [dot subid (B "none")]; run_on inj st (match tmp with Some x => x | None => z0 end)) w3 is).
      { eapply tsim_bind; [apply names_sim; [done|]; intros nm ->%elem_of_list_singleton; apply Hg2|]. intros w4 r r' L4 Hr.
        destruct r, r'; try done; apply run_on_sim; try apply Hr; [by eapply ver_later|done]. }
      destruct cl as [l|]; [|exact Hnone]. destruct (bool_decide (0 < c)); [|exact Hnone]. by apply loop_sim.
    Qed.
    Lemma condition_sim w st data : ver w y x -> good x (two_ids data).2 -> (forall v, good x (dotted (two_ids data).2 v)) ->
      tsim (t_condition F ord n tinj st y data) (do_condition F ord th n inj st x data) w is.
    Proof.
      intros Hv Hg1 Hg2. unfold t_condition, do_condition. destruct (two_ids data) as [subdata subid]. cbn [snd] in *.
      eapply tsim_bind; [by apply get_sim|]. intros w1 r r' L1 Hr.
      eapply tsim_bind; [apply tsim_lift|]. intros w2 value ? L2 <-.
      assert (Hv2 : ver w2 y x) by (eapply ver_later; [|exact Hv]; by eapply later_trans).
      assert (Hans : forall u u' q q', later u u' -> ans u q q' -> ans u' q q') by (intros u u' q q' L H; destruct q, q'; try done; split; [eapply ver_later; [done|apply H]|apply H]).
      assert (Hr2 : ans w2 r r') by (by eapply Hans).
      eapply (tsim_bind _ _ _ (fun w a b => a.1 = b.1 /\ ans w a.2 b.2)).
      - destruct r as [s|], r' as [s'|]; try done; [|by apply tsim_ret].
        destruct (is_nil value); [by apply tsim_ret|].
        destruct (as_dataset st.1 value) as [d|].
        + eapply tsim_bind; [apply tsim_lift|]. intros w3 sc1 ? L3 <-. assert (Hv3 : ver w3 y x) by (by eapply ver_later).
          eapply tsim_bind; [apply get_sim; [done|done|apply Hg2]|]. intros w4 q q' L4 Hq. assert (Hr4 : ans w4 (Some s) (Some s')) by (eapply (Hans w2); [by eapply later_trans|done]).
          assert (Hb : ver w4 (match q with Some x => x | None => s end) (match q' with Some x => x | None => s' end) /\ S (match q' with Some x => x | None => s' end)) by (by destruct q, q').
          eapply tsim_bind; [apply Hinj; apply Hb|]. intros w5 [st2 out] ? L5 <-.
          eapply tsim_bind; [apply tsim_lift|]. intros w6 sc3 ? L6 <-. apply tsim_ret. split; [done|]. eapply (Hans w4 w6 (Some _) (Some _)); [by eapply later_trans|exact Hb].
        + eapply tsim_bind; [apply tsim_lift|]. intros w3 svalue ? L3 <-. assert (Hv3 : ver w3 y x) by (by eapply ver_later).
          destruct svalue as [|ch svalue]; [apply tsim_ret; split; [done|]; by eapply (Hans w2)|].
          eapply tsim_bind; [apply get_sim; [done|done|apply Hg2]|]. intros w4 q q' L4 Hq. assert (Hr4 : ans w4 (Some s) (Some s')) by (eapply (Hans w2); [by eapply later_trans|done]).
          assert (Hb : ver w4 (match q with Some x => x | None => s end) (match q' with Some x => x | None => s' end) /\ S (match q' with Some x => x | None => s' end)) by (by destruct q, q').
          eapply tsim_bind; [apply Hinj; apply Hb|]. intros w5 [st2 out] ? L5 <-. apply tsim_ret. split; [done|]. eapply (Hans w4 w5 (Some _) (Some _)); [done|exact Hb].
      - intros w3 [[st1 outs] s1] [[st1' outs'] s1'] L3 [[= <- <-] Hs]. cbn [fst snd] in Hs.
        eapply tsim_bind; [apply tsim_lift|]. intros w4 em ? L4 <-. destruct em; [|by apply tsim_ret].
        eapply tsim_bind; [apply get_sim; [done|eapply ver_later; [|exact Hv2]; by eapply later_trans|apply Hg2]|]. intros w5 q q' L5 Hq.
        assert (Hs5 : ans w5 s1 s1') by (eapply (Hans w3); [by eapply later_trans|done]).
        eapply tsim_bind; [apply run_opt_sim; by destruct q, q'|]. intros w6 [st2 outs2] ? L6 <-. by apply tsim_ret.
    Qed.
    (** The names that an element looks up. *)
    Definition asks (p : param) (nm : bytes) : Prop :=
      (p_type p = MReference /\ match split_on ":"%char (p_data p) with [_; _; prefix] => exists v, nm = prefix ++ v | a :: _ => nm = a | [] => nm = [] end) \/
      ((p_type p = MRange \/ p_type p = MCondition) /\ (nm = (two_ids (p_data p)).2 \/ exists v, nm = dotted (two_ids (p_data p)).2 v)).
    Lemma param_sim w st p : ver w y x -> (forall nm, asks p nm -> good x nm) -> tsim (t_param F ord n lg tinj st y p) (do_param F ord th n lg inj st x p) w is.
    Proof.
      intros Hv Hg. unfold t_param, do_param. repeat (case_bool_decide; [try (by apply tsim_ret)|]); try (by apply tsim_ret).
      - apply reference_sim; [done|]. assert (Hr : forall nm, match split_on ":"%char (p_data p) with [_; _; prefix] => exists v, nm = prefix ++ v | a :: _ => nm = a | [] => nm = [] end -> good x nm)
          by (intros nm Hnm; apply Hg; left; done).
        destruct (split_on ":"%char (p_data p)) as [|a [|b [|c [|]]]]; try (by apply Hr). intros v. apply Hr. by exists v.
      - destruct (st.2); [|by apply tsim_ret]. eapply tsim_bind; [apply tsim_lift|]. intros w1 d ? L1 <-. by apply tsim_ret.
      - apply range_sim; [done|..]; intros; apply Hg; right; (split; [by left|]); [by left|right; by eexists].
      - apply condition_sim; [done|..]; intros; apply Hg; right; (split; [by right|]); [by left|right; by eexists].
      - destruct (st.2) as [[|d xs]|]; try (by apply tsim_ret). eapply tsim_bind; [apply tsim_lift|]. intros w1 s ? L1 <-. by apply tsim_ret.
      - destruct (st.2) as [[|]|]; by apply tsim_ret.
    Qed.
    Lemma params_sim ps : forall w st, ver w y x -> (forall p nm, p ∈ ps -> asks p nm -> good x nm) ->
      tsim (t_params F ord n lg tinj st y ps) (do_params F ord th n lg inj st x ps) w is.
    Proof.
      induction ps as [|p ps IH]; intros w st Hv Hg; cbn; [by apply tsim_ret|]. eapply tsim_bind; [apply param_sim; [done|]; intros nm; apply Hg; by left|].
      intros w1 [st1 a] ? L1 <-. eapply tsim_bind; [apply IH; [by eapply ver_later|]; intros q nm Hq; apply Hg; by right|]. intros w2 [st2 b] ? L2 <-. by apply tsim_ret.
    Qed.
  End Body.
  Lemma asks_may k nm : k <> TClose -> (forall s, k <> TOpen s) -> asks (stored k) nm -> may_call k nm.
  Proof.
    intros _ _ [[Ht H]|[Ht H]].
    - destruct k; try done. cbn in H. destruct (split_on ":"%char s) as [|a ws] eqn:E; [by apply split_on_nonempty in E|]. apply separated_split in E.
      destruct ws as [|b [|c [|]]]; [subst; by eapply mc_ref|subst; by eapply mc_ref| |subst; by eapply mc_ref]. destruct H as (v & ->). by eapply mc_select.
    - destruct k; try (by destruct Ht); cbn in H; destruct (two_ids s) as [d b] eqn:E; apply two_ids_spec in E; cbn in H;
        (destruct H as [->|(v & ->)]; [|]); [by eapply mc_range|by eapply mc_range_choice|by eapply mc_cond|by eapply mc_cond_value].
  Qed.
  Context (Hcomp : compiled th) (HS : forall x X l k n y, S x -> th !! x = Some X -> t_root X = Some (map stored l) -> k ∈ l -> may_call k n ->
    visible th x n (Some y) -> subs_of X !! n = Some y /\ S y).
  Lemma injector_sim F ord lg n : forall w st y x, ver w y x -> S x -> tsim (t_injector F ord n lg st y) (injector F ord th n lg st x) w is.
  Proof.
    induction n as [|n IH]; intros w st y x Hv Hs; cbn [t_injector injector]; [apply tsim_out|].
    intros Ho. apply safe_bind. eapply safe_field; [apply Hv|]. intros w1 Y1 L1 I1 _ HY1. assert (Hv1 : ver w1 y x) by (by eapply ver_later).
    destruct (ver_right th w1 y x Y1 I1 Hv1 HY1) as (O & HO & Hr & _). rewrite HO in Ho |- *. rewrite Hr. destruct (t_root O) as [ps|] eqn:Eps; [|cbn; split; [done|]; by eexists].
    apply safe_bind. eapply safe_field; [apply Hv1|]. intros w2 Y2 L2 I2 _ HY2. destruct (ver_const w1 w2 y x Y1 Y2 L2 Hv1 HY1 HY2) as [-> _]. rewrite Hr.
    destruct (Hcomp x O ps HO Eps) as (l & El & Hl). subst ps.
    refine (_ Ho). change (tsim ('(st1, outs) <~ t_params F ord n lg (t_injector F ord n lg) st y (map stored l); TRet (st1, concat outs))
      ('(st1, outs) <-! do_params F ord th n lg (injector F ord th n lg) st x (map stored l); Ok (st1, concat outs)) w2 is).
    eapply tsim_bind; [eapply (params_sim F ord n lg _ _ IH y x)|].
    - by exists O.
    - by eapply ver_later.
    - intros p nm Hp Ha. apply elem_of_list_fmap in Hp as (k & -> & Hk). rewrite Forall_forall in Hl. destruct (Hl k Hk) as [Hk1 Hk2].
      apply asks_may in Ha; [|done|done]. intros x0 Hvis. destruct (HS x O l k nm x0 Hs HO Eps Hk Ha Hvis) as [H1 H2]. split; [by exists O|done].
    - intros w3 [st1 outs] ? L3 <-. by apply tsim_ret.
  Qed.
  Lemma execute_sim F ord langs n w h y x data : ver w y x -> S x -> tsim (t_execute F ord langs n h y data) (execute F ord langs th n h x data) w is.
  Proof.
    intros Hv Hs. unfold t_execute, execute. destruct data as [d|].
    - eapply tsim_bind; [apply tsim_lift|]. intros w1 r ? L1 <-. eapply tsim_bind; [apply injector_sim; [by eapply ver_later|done]|]. intros w2 [st out] ? L2 <-. by apply tsim_ret.
    - eapply tsim_bind; [by apply injector_sim|]. intros w2 [st out] ? L2 <-. by apply tsim_ret.
  Qed.
End Looking.

(** * Languages used by several goroutines. *)
From Verif Require Import GoBase GoStrings GoStringsProofs LangModel LangSpec LangProofs LangProofs2 LangConc LangConcSpec.

Lemma lupd_same f t x : lupd f t x t = x.
Proof. unfold lupd. by rewrite decide_True. Qed.
Lemma lupd_other f t x t' : t' <> t -> lupd f t x t' = f t'.
Proof. intros H. unfold lupd. by rewrite decide_False. Qed.
Lemma lupd_cases f t x t' y : lupd f t x t' = y -> (t' = t /\ y = x) \/ (t' <> t /\ f t' = y).
Proof. unfold lupd. destruct (decide (t' = t)); intros <-; auto. Qed.

(** ** What a step writes on a key *)
Definition said (k : bytes) (a : atom) : option bytes :=
  match a with AtLine line => l_entries (load_line (new_lang [] []) line) !! k | _ => None end.
Lemma pass_lookup l a k : l_entries (pass l a) !! k = match said k a with Some v => Some v | None => l_entries l !! k end.
Proof.
  destruct a as [line|n|t]; try done. cbn [pass said].
  destruct (load_line_spec l line) as [(k1 & v1 & H1 & ->)|[H1 ->]];
    destruct (load_line_spec (new_lang [] []) line) as [(k2 & v2 & H2 & ->)|[H2 ->]].
  - destruct (entry_line_unique _ _ _ _ _ H1 H2) as [-> ->]. cbn [lset l_entries new_lang].
    destruct (decide (k = k2)) as [->|Hne]; [by rewrite !lookup_insert|]. rewrite !lookup_insert_ne by done. by rewrite lookup_empty.
  - by destruct (H2 k1 v1).
  - by destruct (H1 k2 v2).
  - cbn [new_lang l_entries]. by rewrite lookup_empty.
Qed.
Fixpoint lastof (k : bytes) (r : list atom) : option bytes :=
  match r with [] => None | a :: r' => match lastof k r' with Some v => Some v | None => said k a end end.
Lemma lastof_app k r1 r2 : lastof k (r1 ++ r2) = match lastof k r2 with Some v => Some v | None => lastof k r1 end.
Proof.
  induction r1 as [|a r1 IH]; cbn [app lastof]; [by destruct (lastof k r2)|]. rewrite IH. by destruct (lastof k r2).
Qed.
Lemma fold_pass k r : forall l, l_entries (fold_left pass r l) !! k = match lastof k r with Some v => Some v | None => l_entries l !! k end.
Proof.
  induction r as [|a r IH]; intros l; [done|]. cbn [fold_left lastof]. rewrite IH, pass_lookup. by destruct (lastof k r).
Qed.
Lemma alone_last parse_tag decode k data : alone data !! k = lastof k (atoms parse_tag decode (KLoadString data)).
Proof.
  unfold alone, load_string. cbn [atoms]. destruct (scan_lines data) as [lines ok]. cbn [fst].
  pose proof (fold_pass k (map AtLine lines) (new_lang [] [])) as H.
  assert (E : forall l, fold_left pass (map AtLine lines) l = fold_left load_line lines l).
  { clear. induction lines as [|line lines IH]; intros l; [done|]. cbn [map fold_left pass]. apply IH. }
  rewrite E in H. rewrite H. cbn [new_lang l_entries]. rewrite lookup_empty. by destruct (lastof k _).
Qed.
(** The lines come from the text. *)
Lemma deliver_in ls line : line ∈ (deliver ls).1 -> exists a raw b, ls = a ++ raw :: b /\ chomp raw line.
Proof.
  induction ls as [|l ls IH]; cbn [deliver]; [by intros ?%elem_of_nil|]. case_bool_decide; [by intros ?%elem_of_nil|].
  destruct (deliver ls) as [r ok]. cbn [fst] in *. intros [->|Hin]%elem_of_cons.
  - exists [], l, ls. split; [done|]. apply drop_cr_chomp.
  - destruct (IH Hin) as (a & raw & b & -> & Hc). by exists (l :: a), raw, b.
Qed.
Lemma said_offers parse_tag decode k v a c : a ∈ atoms parse_tag decode c -> said k a = Some v -> offers decode c k v.
Proof.
  destruct c as [| | | | | |data|data]; cbn [atoms]; try by intros ?%elem_of_nil.
  - intros (line & -> & Hin)%elem_of_list_fmap Hs. cbn [said] in Hs.
    apply deliver_in in Hin as (x & raw & y & E & Hc). exists x, raw, y, line. split; [by apply raw_lines_split|]. split; [done|].
    destruct (load_line_spec (new_lang [] []) line) as [(k' & v' & Hl & E')|[_ E']]; rewrite E' in Hs; cbn [lset new_lang l_entries] in Hs.
    + apply lookup_insert_Some in Hs as [[-> ->]|[_ Hs]]; [done|]. by rewrite lookup_empty in Hs.
    + by rewrite lookup_empty in Hs.
  - destruct (decode data); [|by intros ?%elem_of_nil]. intros Hin Hs.
    repeat (apply elem_of_cons in Hin as [->|Hin]; [done|]). by apply elem_of_nil in Hin.
Qed.

Section Runs.
  Context (parse_tag : bytes -> bytes) (decode : bytes -> option xdoc).
  Notation step := (lcstep parse_tag decode).
  Notation exec := (lcexec parse_tag decode).

  (** An invariant of the steps holds at the end. *)
  Lemma exec_inv (I : lconf -> list levent -> Prop) (h0 : list levent) g acts g' h :
    (forall g0 a g1 e h1, I g0 h1 -> step g0 a = Some (g1, e) -> I g1 (h1 ++ [e])) ->
    I g h0 -> exec g acts = Some (g', h) -> I g' (h0 ++ h).
  Proof.
    intros Hs. revert g h0 h. induction acts as [|a acts IH]; intros g h0 h HI; cbn [lcexec].
    - intros [= <- <-]. by rewrite app_nil_r.
    - destruct (step g a) as [[g1 e]|] eqn:E; [|done]. destruct (exec g1 acts) as [[g2 h2]|] eqn:E2; [|done]. intros [= <- <-].
      change (e :: h2) with ([e] ++ h2). rewrite (app_assoc h0 [e] h2). eapply IH; [|done]. by eapply Hs.
  Qed.
  (** The same where only calls with [P] are made. *)
  Lemma exec_inv_calls (P : lcall -> Prop) (I : lconf -> list levent -> Prop) (h0 : list levent) g acts g' h :
    (forall g0 a g1 e h1, all_calls P (h1 ++ [e]) -> I g0 h1 -> step g0 a = Some (g1, e) -> I g1 (h1 ++ [e])) ->
    all_calls P (h0 ++ h) -> I g h0 -> exec g acts = Some (g', h) -> I g' (h0 ++ h).
  Proof.
    intros Hs Hall Hi He. refine (exec_inv (fun g h => all_calls P h -> I g h) h0 g acts g' h _ (fun _ => Hi) He Hall).
    intros g0 a g1 e h1 H0 E Ha. eapply Hs; [done| |done]. apply H0. intros t c Hin. apply (Ha t c). by apply elem_of_app; left.
  Qed.

  (** Threads: a call in progress has been called, its remaining steps are the end of its plan. *)
  Definition fits (g : lconf) (h : list levent) : Prop :=
    (forall t c r, lc_thr g t = LBusy c r -> ECall t c ∈ h /\ exists d, atoms parse_tag decode c = d ++ r) /\
    (forall t c r, lc_thr g t = LDone c r -> ECall t c ∈ h).
  Lemma fits_step g0 a g1 e h1 : fits g0 h1 -> step g0 a = Some (g1, e) -> fits g1 (h1 ++ [e]).
  Proof.
    intros [F1 F2] E. assert (Hm : forall t c, ECall t c ∈ h1 -> ECall t c ∈ h1 ++ [e]) by (intros; apply elem_of_app; by left).
    destruct a as [t c|t|t]; cbn [lcstep] in E.
    - destruct (lc_thr g0 t) eqn:Et; [|done|done]. injection E as <- <-. split; cbn [lc_thr].
      + intros t' c' r [[-> [= -> ->]]|[Hne Ht]]%lupd_cases.
        * split; [apply elem_of_app; right; by left|]. by exists [].
        * destruct (F1 _ _ _ Ht). auto.
      + intros t' c' r [[-> [=]]|[Hne Ht]]%lupd_cases. eauto.
    - destruct (lc_thr g0 t) as [|c [|x rest]|] eqn:Et; [done|..|done].
      + destruct (finish decode (lc_lang g0) c) as [l r]. injection E as <- <-. split; cbn [lc_thr].
        * intros t' c' r' [[-> [=]]|[Hne Ht]]%lupd_cases. destruct (F1 _ _ _ Ht). auto.
        * intros t' c' r' [[-> [= -> ->]]|[Hne Ht]]%lupd_cases; [|eauto]. destruct (F1 _ _ _ Et). auto.
      + injection E as <- <-. split; cbn [lc_thr].
        * intros t' c' r' [[-> [= -> ->]]|[Hne Ht]]%lupd_cases; [|destruct (F1 _ _ _ Ht); auto].
          destruct (F1 _ _ _ Et) as [Hin [d Hd]]. split; [auto|]. exists (d ++ [x]). by rewrite <- app_assoc.
        * intros t' c' r' [[-> [=]]|[Hne Ht]]%lupd_cases. eauto.
    - destruct (lc_thr g0 t) as [| |c r] eqn:Et; [done|done|]. injection E as <- <-. split; cbn [lc_thr].
      + intros t' c' r' [[-> [=]]|[Hne Ht]]%lupd_cases. destruct (F1 _ _ _ Ht). auto.
      + intros t' c' r' [[-> [=]]|[Hne Ht]]%lupd_cases. eauto.
  Qed.

  (** ** No invented values *)
  Definition known (l0 : lang) (h : list levent) (k v : bytes) : Prop :=
    l_entries l0 !! k = Some v \/ exists t c, ECall t c ∈ h /\ offers decode c k v.
  Definition honest (l0 : lang) (g : lconf) (h : list levent) : Prop :=
    fits g h /\ (forall k v, l_entries (lc_lang g) !! k = Some v -> known l0 h k v) /\
    (forall t k v, lc_thr g t = LDone (KGet k) (LText v) -> v = [] \/ known l0 h k v) /\
    (forall t m, lc_thr g t = LDone KGetEntries (LTable m) -> forall k v, m !! k = Some v -> known l0 h k v) /\
    (forall h1 t k v h2, h = h1 ++ ERet t (KGet k) (LText v) :: h2 -> v = [] \/ known l0 h1 k v) /\
    (forall h1 t m h2, h = h1 ++ ERet t KGetEntries (LTable m) :: h2 -> forall k v, m !! k = Some v -> known l0 h1 k v).
  Lemma known_mono l0 h e k v : known l0 h k v -> known l0 (h ++ e) k v.
  Proof. intros [H|(t & c & H & Ho)]; [by left|right]. exists t, c. split; [apply elem_of_app; by left|done]. Qed.
  Lemma snoc_split {A} (h : list A) e h1 x h2 : h ++ [e] = h1 ++ x :: h2 ->
    (h2 = [] /\ h1 = h /\ x = e) \/ exists h3, h2 = h3 ++ [e] /\ h = h1 ++ x :: h3.
  Proof.
    destruct h2 as [|y h2 _] using rev_ind.
    - intros [-> [= ->]]%app_inj_tail. by left.
    - intros E. right. exists h2. change (x :: h2 ++ [y]) with ((x :: h2) ++ [y]) in E. rewrite app_assoc in E.
      by apply app_inj_tail in E as [-> ->].
  Qed.
  Lemma add_entries_in es : forall l k v, l_entries (fold_left add_entry es l) !! k = Some v ->
    l_entries l !! k = Some v \/ exists s, (k, v, s) ∈ es.
  Proof.
    induction es as [|[[i t] s] es IH]; intros l k v; cbn [fold_left]; [by left|]. intros [H|(s' & H)]%IH.
    - cbn in H. apply lookup_insert_Some in H as [[-> ->]|[_ H]]; [right; exists s; by left|by left].
    - right. exists s'. by right.
  Qed.
  Lemma honest_step l0 g0 a g1 e h1 : honest l0 g0 h1 -> step g0 a = Some (g1, e) -> honest l0 g1 (h1 ++ [e]).
  Proof.
    intros (F & HS & HD1 & HD2 & HR1 & HR2) E. split; [by eapply fits_step|]. destruct F as [F1 F2].
    assert (HS' : forall k v, l_entries (lc_lang g1) !! k = Some v -> known l0 (h1 ++ [e]) k v).
    { intros k v Hk. destruct a as [t c|t|t]; cbn [lcstep] in E.
      - destruct (lc_thr g0 t) eqn:Et; [|done|done]. injection E as <- <-. by apply known_mono, HS.
      - destruct (lc_thr g0 t) as [|c [|x rest]|] eqn:Et; [done|..|done].
        + destruct (finish decode (lc_lang g0) c) as [l r] eqn:Ef. injection E as <- <-. cbn [lc_lang] in Hk.
          destruct (F1 _ _ _ Et) as [Hc _]. destruct c as [k' v'|k'|k' v'|k'|k'| |data|data]; cbn [finish] in Ef;
            try (injection Ef as <- <-; by apply known_mono, HS).
          * injection Ef as <- <-. cbn in Hk. apply lookup_insert_Some in Hk as [[-> ->]|[_ Hk]]; [|by apply known_mono, HS].
            right. exists t, (KSet k v). split; [apply elem_of_app; by left|done].
          * injection Ef as <- <-. cbn in Hk. apply lookup_delete_Some in Hk as [_ Hk]. by apply known_mono, HS.
          * destruct (decode data) as [d|] eqn:Ed; injection Ef as <- <-; [|by apply known_mono, HS].
            apply add_entries_in in Hk as [Hk|[s Hk]]; [by apply known_mono, HS|].
            right. exists t, (KLoadXML data). split; [apply elem_of_app; by left|]. by exists d, s.
        + injection E as <- <-. cbn [lc_lang] in Hk. rewrite pass_lookup in Hk. destruct (said k x) as [w|] eqn:Es; [|by apply known_mono, HS].
          injection Hk as ->. destruct (F1 _ _ _ Et) as [Hc [d Hd]]. right. exists t, c. split; [apply elem_of_app; by left|].
          eapply said_offers; [|done]. rewrite Hd. apply elem_of_app. right. by left.
      - destruct (lc_thr g0 t) eqn:Et; [done|done|]. injection E as <- <-. by apply known_mono, HS. }
    split; [done|].
    assert (Hnew : forall t c r, lc_thr g1 t = LDone c r -> lc_thr g0 t = LDone c r \/ (finish decode (lc_lang g0) c).2 = r).
    { intros t c r. destruct a as [t' c'|t'|t']; cbn [lcstep] in E.
      - destruct (lc_thr g0 t') eqn:Et; [|done|done]. injection E as <- <-. intros [[-> [=]]|[Hne Ht]]%lupd_cases. by left.
      - destruct (lc_thr g0 t') as [|c'' [|x rest]|] eqn:Et; [done|..|done].
        + destruct (finish decode (lc_lang g0) c'') as [l r'] eqn:Ef. injection E as <- <-.
          intros [[-> [= -> ->]]|[Hne Ht]]%lupd_cases; [right|by left]. by rewrite Ef.
        + injection E as <- <-. intros [[-> [=]]|[Hne Ht]]%lupd_cases. by left.
      - destruct (lc_thr g0 t') eqn:Et; [done|done|]. injection E as <- <-. intros [[-> [=]]|[Hne Ht]]%lupd_cases. by left. }
    assert (Hret : forall t c r, e = ERet t c r -> lc_thr g0 t = LDone c r).
    { intros t c r ->. destruct a as [t' c'|t'|t']; cbn [lcstep] in E.
      - destruct (lc_thr g0 t') eqn:Et; done.
      - destruct (lc_thr g0 t') as [|c'' [|x rest]|] eqn:Et; [done|..|done]; [by destruct (finish _ _ _)|done].
      - destruct (lc_thr g0 t') eqn:Et; [done|done|]. by injection E as <- -> -> ->. }
    split_and!.
    - intros t k v [Ht|Hf]%Hnew.
      + destruct (HD1 _ _ _ Ht) as [->|H]; [by left|right; by apply known_mono].
      + cbn [finish snd] in Hf. injection Hf as <-. unfold lget. destruct (l_entries (lc_lang g0) !! k) as [v|] eqn:Ek; [|by left].
        right. by apply known_mono, HS.
    - intros t m [Ht|Hf]%Hnew k v Hk.
      + by eapply known_mono, HD2.
      + cbn [finish snd] in Hf. injection Hf as <-. by apply known_mono, HS.
    - intros h2 t k v h3 [(-> & -> & Ee)|(h4 & -> & ->)]%snoc_split.
      + symmetry in Ee. apply Hret in Ee. by apply (HD1 t).
      + by eapply HR1.
    - intros h2 t m h3 [(-> & -> & Ee)|(h4 & -> & ->)]%snoc_split k v Hk.
      + symmetry in Ee. apply Hret in Ee. by eapply (HD2 t).
      + by eapply HR2.
  Qed.
  Lemma honest_run l0 acts g h : exec (linit l0) acts = Some (g, h) -> honest l0 g h.
  Proof.
    intros E. change h with ([] ++ h). eapply exec_inv; [|split_and!|exact E].
    - intros. by eapply honest_step.
    - split; intros; done.
    - intros k v Hk. by left.
    - done.
    - done.
    - intros h1 *. by destruct h1.
    - intros h1 *. by destruct h1.
  Qed.
  Lemma no_invention l0 acts g h h1 t k v h2 : exec (linit l0) acts = Some (g, h) -> h = h1 ++ ERet t (KGet k) (LText v) :: h2 ->
    v = [] \/ l_entries l0 !! k = Some v \/ exists t' c, ECall t' c ∈ h1 /\ offers decode c k v.
  Proof. intros (_ & _ & _ & _ & H & _)%honest_run E. by eapply H. Qed.

  (** ** Flat texts loaded side by side *)
  Notation plan c := (atoms parse_tag decode c).
  Definition flat_inv (k : bytes) (l0 : lang) (g : lconf) (h : list levent) : Prop :=
    fits g h /\
    ((l_entries (lc_lang g) !! k = l_entries l0 !! k /\
      forall t data, ECall t (KLoadString data) ∈ h ->
        alone data !! k = None \/ exists t' rest, lc_thr g t' = LBusy (KLoadString data) rest /\ lastof k rest = alone data !! k) \/
     (exists t data v, ECall t (KLoadString data) ∈ h /\ l_entries (lc_lang g) !! k = Some v /\
        (alone data !! k = Some v \/
         exists t' rest w, lc_thr g t' = LBusy (KLoadString data) rest /\ lastof k rest = Some w /\ alone data !! k = Some w))).
  Lemma flat_step k l0 g0 a g1 e h1 : all_calls (fun c => loads_flat c \/ reads_only c) (h1 ++ [e]) ->
    flat_inv k l0 g0 h1 -> step g0 a = Some (g1, e) -> flat_inv k l0 g1 (h1 ++ [e]).
  Proof.
    intros Hall [F HI] E. split; [by eapply fits_step|]. destruct F as [F1 F2].
    assert (Hm : forall t c, ECall t c ∈ h1 -> ECall t c ∈ h1 ++ [e]) by (intros; apply elem_of_app; by left).
    destruct a as [t c|t|t]; cbn [lcstep] in E.
    - destruct (lc_thr g0 t) eqn:Et; [|done|done]. injection E as <- <-. cbn [lc_lang lc_thr].
      assert (Hk : forall t' c' r, lc_thr g0 t' = LBusy c' r -> lupd (lc_thr g0) t (LBusy c (plan c)) t' = LBusy c' r).
      { intros t' c' r Ht. rewrite lupd_other; [done|]. intros ->. congruence. }
      destruct HI as [[HE HA]|(t0 & data & v & Hc & HE & HB)].
      + left. split; [done|]. intros t' data [Hin|Hin]%elem_of_app.
        * destruct (HA _ _ Hin) as [?|(t1 & rest & Ht & Hl)]; [by left|right]. exists t1, rest. split; [by apply Hk|done].
        * apply elem_of_list_singleton in Hin as [= -> <-]. right. exists t, (plan (KLoadString data)). split; [apply lupd_same|].
          by rewrite (alone_last parse_tag decode).
      + right. exists t0, data, v. split; [by apply Hm|]. split; [done|].
        destruct HB as [?|(t1 & rest & w & Ht & Hl)]; [by left|right]. exists t1, rest, w. split; [by apply Hk|done].
    - destruct (lc_thr g0 t) as [|c [|x rest]|] eqn:Et; [done|..|done].
      + assert (Hc : loads_flat c \/ reads_only c).
        { apply (Hall t c), elem_of_app. left. by apply (F1 _ _ _ Et). }
        assert (Hf : exists r, finish decode (lc_lang g0) c = (lc_lang g0, r)).
        { destruct c; destruct Hc as [Hc|Hc]; try done; eexists; reflexivity. }
        destruct Hf as [r Hf]. rewrite Hf in E. injection E as <- <-. cbn [lc_lang lc_thr].
        assert (Hk : forall t' c' r' x', lc_thr g0 t' = LBusy c' (x' :: r') -> lupd (lc_thr g0) t (LDone c r) t' = LBusy c' (x' :: r')).
        { intros t' c' r' x' Ht. rewrite lupd_other; [done|]. intros ->. congruence. }
        destruct HI as [[HE HA]|(t0 & data & v & Hcd & HE & HB)].
        * left. split; [done|]. intros t' data [Hin|Hin]%elem_of_app; [|by apply elem_of_list_singleton in Hin].
          destruct (HA _ _ Hin) as [?|(t1 & rest & Ht & Hl)]; [by left|]. destruct rest as [|x rest]; [left; by rewrite <- Hl|].
          right. exists t1, (x :: rest). split; [by apply Hk|done].
        * right. exists t0, data, v. split; [by apply Hm|]. split; [done|].
          destruct HB as [?|(t1 & rest & w & Ht & Hl)]; [by left|right]. destruct rest as [|x rest]; [by destruct Hl|].
          exists t1, (x :: rest), w. split; [by apply Hk|done].
      + injection E as <- <-. cbn [lc_lang lc_thr]. destruct (F1 _ _ _ Et) as [Hcall [d Hd]].
        rewrite pass_lookup. destruct (said k x) as [v|] eqn:Es.
        * (* this step decides the entry *)
          right. assert (Hc : loads_flat c \/ reads_only c) by (apply (Hall t c), elem_of_app; by left).
          destruct c as [| | | | | |data|]; destruct Hc as [Hc|Hc]; try done; try (by destruct d).
          exists t, data, v. split; [by apply Hm|]. split; [done|].
          pose proof (alone_last parse_tag decode k data) as Ha. rewrite Hd, lastof_app in Ha. cbn [lastof] in Ha.
          destruct (lastof k rest) as [w|] eqn:El.
          -- right. exists t, rest, w. split; [apply lupd_same|]. done.
          -- left. by rewrite Ha, Es.
        * assert (Hk : forall t' c' r', lc_thr g0 t' = LBusy c' r' -> exists r'', lupd (lc_thr g0) t (LBusy c rest) t' = LBusy c' r'' /\ lastof k r'' = lastof k r').
          { intros t' c' r' Ht. destruct (decide (t' = t)) as [->|Hne].
            - rewrite Et in Ht. injection Ht as <- <-. exists rest. split; [apply lupd_same|]. cbn [lastof]. rewrite Es. by destruct (lastof k rest).
            - exists r'. split; [by rewrite lupd_other|done]. }
          destruct HI as [[HE HA]|(t0 & data & v & Hcd & HE & HB)].
          -- left. split; [done|]. intros t' data [Hin|Hin]%elem_of_app; [|by apply elem_of_list_singleton in Hin].
             destruct (HA _ _ Hin) as [?|(t1 & rest' & Ht & Hl)]; [by left|right].
             destruct (Hk _ _ _ Ht) as (r'' & H1 & H2). exists t1, r''. split; [done|]. congruence.
          -- right. exists t0, data, v. split; [by apply Hm|]. split; [done|].
             destruct HB as [?|(t1 & rest' & w & Ht & Hl & Hw)]; [by left|right].
             destruct (Hk _ _ _ Ht) as (r'' & H1 & H2). exists t1, r'', w. split; [done|]. split; [congruence|done].
    - destruct (lc_thr g0 t) as [| |c r] eqn:Et; [done|done|]. injection E as <- <-. cbn [lc_lang lc_thr].
      assert (Hk : forall t' c' r', lc_thr g0 t' = LBusy c' r' -> lupd (lc_thr g0) t LIdle t' = LBusy c' r').
      { intros t' c' r' Ht. rewrite lupd_other; [done|]. intros ->. congruence. }
      destruct HI as [[HE HA]|(t0 & data & v & Hcd & HE & HB)].
      + left. split; [done|]. intros t' data [Hin|Hin]%elem_of_app; [|by apply elem_of_list_singleton in Hin].
        destruct (HA _ _ Hin) as [?|(t1 & rest & Ht & Hl)]; [by left|right]. exists t1, rest. split; [by apply Hk|done].
      + right. exists t0, data, v. split; [by apply Hm|]. split; [done|].
        destruct HB as [?|(t1 & rest & w & Ht & Hl)]; [by left|right]. exists t1, rest, w. split; [by apply Hk|done].
  Qed.
  Lemma flat_run k l0 acts g h : exec (linit l0) acts = Some (g, h) -> all_calls (fun c => loads_flat c \/ reads_only c) h ->
    flat_inv k l0 g h.
  Proof.
    intros E Hall. change h with ([] ++ h). eapply exec_inv_calls; [|exact Hall| |exact E].
    - intros. by eapply flat_step.
    - split; [by split|]. left. split; [done|]. by intros t data ?%elem_of_nil.
  Qed.
  Lemma flat_end l0 acts g h k : exec (linit l0) acts = Some (g, h) -> all_calls (fun c => loads_flat c \/ reads_only c) h -> all_idle g ->
    (l_entries (lc_lang g) !! k = l_entries l0 !! k /\ forall t data, ECall t (KLoadString data) ∈ h -> alone data !! k = None) \/
    (exists t data v, ECall t (KLoadString data) ∈ h /\ alone data !! k = Some v /\ l_entries (lc_lang g) !! k = Some v).
  Proof.
    intros E Hall Hi. destruct (flat_run k l0 acts g h E Hall) as [_ [[HE HA]|(t & data & v & Hc & HE & HB)]].
    - left. split; [done|]. intros t data Hin. destruct (HA _ _ Hin) as [?|(t' & rest & Ht & _)]; [done|]. by rewrite (Hi t') in Ht.
    - right. exists t, data, v. destruct HB as [?|(t' & rest & w & Ht & _)]; [done|]. by rewrite (Hi t') in Ht.
  Qed.

  (** ** Documents are loaded whole *)
  Lemma load_docs_snoc m s docs d : load_docs m s (docs ++ [d]) =
    fold_left (fun ms e => let '(id, text, status) := e in (<[id := text]> ms.1, <[id := status]> ms.2)) (x_entries d) (load_docs m s docs).
  Proof. unfold load_docs. rewrite map_app, concat_app, fold_left_app. cbn [map concat]. by rewrite app_nil_r. Qed.
  Lemma add_entries_tables es : forall l, (l_entries (fold_left add_entry es l), l_status (fold_left add_entry es l)) =
    fold_left (fun ms e => let '(id, text, status) := e in (<[id := text]> ms.1, <[id := status]> ms.2)) es (l_entries l, l_status l).
  Proof. induction es as [|[[i t] s] es IH]; intros l; [done|]. cbn [fold_left]. rewrite IH. done. Qed.
  Definition doc_of (h : list levent) (d : xdoc) : Prop := exists t data, ECall t (KLoadXML data) ∈ h /\ decode data = Some d.
  Definition tables_of (l0 : lang) (h : list levent) (docs : list xdoc) (ms : table * table) : Prop :=
    ms = load_docs (l_entries l0) (l_status l0) docs /\ forall d, d ∈ docs -> doc_of h d.
  Definition doc_inv (l0 : lang) (g : lconf) (h : list levent) : Prop :=
    fits g h /\
    (exists docs, tables_of l0 h docs (l_entries (lc_lang g), l_status (lc_lang g)) /\
       (forall t data d r, ERet t (KLoadXML data) r ∈ h -> decode data = Some d -> d ∈ docs) /\
       (forall t data d r, lc_thr g t = LDone (KLoadXML data) r -> decode data = Some d -> d ∈ docs)) /\
    (forall t m, lc_thr g t = LDone KGetEntries (LTable m) -> exists docs s, tables_of l0 h docs (m, s)) /\
    (forall h1 t m h2, h = h1 ++ ERet t KGetEntries (LTable m) :: h2 -> exists docs s, tables_of l0 h1 docs (m, s)).
  Lemma tables_mono l0 h e docs ms : tables_of l0 h docs ms -> tables_of l0 (h ++ e) docs ms.
  Proof.
    intros [H1 H2]. split; [done|]. intros d (t & data & Hin & Hd)%H2. exists t, data. split; [apply elem_of_app; by left|done].
  Qed.
  Lemma pass_tables c x d r l : loads_doc c \/ reads_only c -> plan c = d ++ x :: r ->
    l_entries (pass l x) = l_entries l /\ l_status (pass l x) = l_status l.
  Proof.
    intros Hc E. assert (Hx : x ∈ plan c) by (rewrite E; apply elem_of_app; right; by left).
    destruct c as [| | | | | |data|data]; cbn [atoms] in Hx; destruct Hc as [Hc|Hc]; try done; try (by apply elem_of_nil in Hx).
    destruct (decode data); [|by apply elem_of_nil in Hx].
    repeat (apply elem_of_cons in Hx as [->|Hx]; [done|]). by apply elem_of_nil in Hx.
  Qed.
  Lemma doc_step l0 g0 a g1 e h1 : all_calls (fun c => loads_doc c \/ reads_only c) (h1 ++ [e]) ->
    doc_inv l0 g0 h1 -> step g0 a = Some (g1, e) -> doc_inv l0 g1 (h1 ++ [e]).
  Proof.
    intros Hall (F & (docs & HT & HR & HD) & HG & HL) E. split; [by eapply fits_step|]. destruct F as [F1 F2].
    assert (Hret : forall t c r, e = ERet t c r -> lc_thr g0 t = LDone c r).
    { intros t c r ->. destruct a as [t' c'|t'|t']; cbn [lcstep] in E.
      - destruct (lc_thr g0 t') eqn:Et; done.
      - destruct (lc_thr g0 t') as [|c'' [|x rest]|] eqn:Et; [done|..|done]; [by destruct (finish _ _ _)|done].
      - destruct (lc_thr g0 t') eqn:Et; [done|done|]. by injection E as <- -> -> ->. }
    assert (HL' : forall h2 t m h3, h1 ++ [e] = h2 ++ ERet t KGetEntries (LTable m) :: h3 -> exists docs s, tables_of l0 h2 docs (m, s)).
    { intros h2 t m h3 [(-> & -> & Ee)|(h4 & -> & ->)]%snoc_split; [|by eapply HL]. symmetry in Ee. apply Hret in Ee. by eapply HG. }
    assert (HR' : forall t data d r, ERet t (KLoadXML data) r ∈ h1 ++ [e] -> decode data = Some d -> d ∈ docs).
    { intros t data d r [Hin|Hin]%elem_of_app Hd; [by eapply HR|]. apply elem_of_list_singleton in Hin. symmetry in Hin. apply Hret in Hin. by eapply HD. }
    destruct a as [t c|t|t]; cbn [lcstep] in E.
    - destruct (lc_thr g0 t) eqn:Et; [|done|done]. injection E as <- <-. cbn [lc_lang lc_thr]. split; [|split; [|done]].
      + exists docs. split; [by apply tables_mono|]. split; [done|]. intros t' data d r [[-> [=]]|[Hne Ht]]%lupd_cases. by eapply HD.
      + intros t' m [[-> [=]]|[Hne Ht]]%lupd_cases. destruct (HG _ _ Ht) as (docs' & s & H'). exists docs', s. by apply tables_mono.
    - destruct (lc_thr g0 t) as [|c [|x rest]|] eqn:Et; [done|..|done].
      + destruct (F1 _ _ _ Et) as [Hcall _].
        assert (Hc : loads_doc c \/ reads_only c) by (apply (Hall t c), elem_of_app; by left).
        destruct (finish decode (lc_lang g0) c) as [l r] eqn:Ef. injection E as <- <-. cbn [lc_lang lc_thr].
        assert (Hsplit : (exists data d, c = KLoadXML data /\ decode data = Some d /\ l = fold_left add_entry (x_entries d) (lc_lang g0)) \/
          (l = lc_lang g0 /\ forall data d, c = KLoadXML data -> decode data = Some d -> False)).
        { destruct c as [| | | | | |data|data]; destruct Hc as [Hc|Hc]; try done; cbn [finish] in Ef; try (injection Ef as <- <-; right; done).
          destruct (decode data) as [d|] eqn:Ed; injection Ef as <- <-; [left; by exists data, d|right]. split; [done|]. intros ? ? [= <-]. congruence. }
        assert (HG' : forall t' m, lupd (lc_thr g0) t (LDone c r) t' = LDone KGetEntries (LTable m) ->
          exists docs' s, tables_of l0 (h1 ++ [ETau]) docs' (m, s)).
        { intros t' m [[-> [= <- <-]]|[Hne Ht]]%lupd_cases.
          - cbn [finish] in Ef. injection Ef as <- <-. exists docs, (l_status (lc_lang g0)). by apply tables_mono.
          - destruct (HG _ _ Ht) as (docs' & s & H'). exists docs', s. by apply tables_mono. }
        destruct Hsplit as [(data & d & -> & Ed & ->)|[-> Hno]]; (split; [|done]).
        * exists (docs ++ [d]). split; [|split].
          -- destruct HT as [HT HT2]. split.
             ++ by rewrite add_entries_tables, load_docs_snoc, HT.
             ++ intros d' [Hin|Hin]%elem_of_app.
                ** destruct (HT2 _ Hin) as (t' & data' & H1 & H2). exists t', data'. split; [apply elem_of_app; by left|done].
                ** apply elem_of_list_singleton in Hin as ->. exists t, data. split; [apply elem_of_app; by left|done].
          -- intros t' data' d' r' Hin Hd. apply elem_of_app. left. by eapply HR'.
          -- intros t' data' d' r' [[-> [= <- <-]]|[Hne Ht]]%lupd_cases Hd; apply elem_of_app.
             ++ right. rewrite Ed in Hd. injection Hd as <-. by left.
             ++ left. by eapply HD.
        * exists docs. split; [by apply tables_mono|]. split; [done|].
          intros t' data' d' r' [[-> [= <- <-]]|[Hne Ht]]%lupd_cases Hd; [by destruct (Hno data' d')|by eapply HD].
      + injection E as <- <-. cbn [lc_lang lc_thr]. destruct (F1 _ _ _ Et) as [Hcall [d Hd]].
        assert (Hc : loads_doc c \/ reads_only c) by (apply (Hall t c), elem_of_app; by left).
        destruct (pass_tables c x d rest (lc_lang g0) Hc Hd) as [-> ->]. split; [|split; [|done]].
        * exists docs. split; [by apply tables_mono|]. split; [done|]. intros t' data d' r [[-> [=]]|[Hne Ht]]%lupd_cases. by eapply HD.
        * intros t' m [[-> [=]]|[Hne Ht]]%lupd_cases. destruct (HG _ _ Ht) as (docs' & s & H'). exists docs', s. by apply tables_mono.
    - destruct (lc_thr g0 t) as [| |c r] eqn:Et; [done|done|]. injection E as <- <-. cbn [lc_lang lc_thr]. split; [|split; [|done]].
      + exists docs. split; [by apply tables_mono|]. split; [done|]. intros t' data d r' [[-> [=]]|[Hne Ht]]%lupd_cases. by eapply HD.
      + intros t' m [[-> [=]]|[Hne Ht]]%lupd_cases. destruct (HG _ _ Ht) as (docs' & s & H'). exists docs', s. by apply tables_mono.
  Qed.
  Lemma doc_run l0 acts g h : exec (linit l0) acts = Some (g, h) -> all_calls (fun c => loads_doc c \/ reads_only c) h -> doc_inv l0 g h.
  Proof.
    intros E Hall. change h with ([] ++ h). eapply exec_inv_calls; [|exact Hall| |exact E].
    - intros. by eapply doc_step.
    - split; [by split|]. split; [|split; [done|intros h1 *; by destruct h1]].
      exists []. split; [split; [done|by intros d ?%elem_of_nil]|]. split; [by intros t data d r ?%elem_of_nil|done].
  Qed.
  Lemma docs_whole l0 acts g h : exec (linit l0) acts = Some (g, h) -> all_calls (fun c => loads_doc c \/ reads_only c) h ->
    exists docs, (l_entries (lc_lang g), l_status (lc_lang g)) = load_docs (l_entries l0) (l_status l0) docs /\
      (forall d, d ∈ docs -> exists t data, ECall t (KLoadXML data) ∈ h /\ decode data = Some d) /\
      (forall t data d r, ERet t (KLoadXML data) r ∈ h -> decode data = Some d -> d ∈ docs).
  Proof. intros E Hall. destruct (doc_run l0 acts g h E Hall) as (_ & (docs & [H1 H2] & H3 & _) & _). by exists docs. Qed.
  Lemma docs_seen_whole l0 acts g h h1 t m h2 : exec (linit l0) acts = Some (g, h) -> all_calls (fun c => loads_doc c \/ reads_only c) h ->
    h = h1 ++ ERet t KGetEntries (LTable m) :: h2 ->
    exists docs, m = (load_docs (l_entries l0) (l_status l0) docs).1 /\
      forall d, d ∈ docs -> exists t data, ECall t (KLoadXML data) ∈ h1 /\ decode data = Some d.
  Proof.
    intros E Hall Hh. destruct (doc_run l0 acts g h E Hall) as (_ & _ & _ & HL). destruct (HL _ _ _ _ Hh) as (docs & s & H1 & H2).
    exists docs. split; [by rewrite <- H1|done].
  Qed.
End Runs.

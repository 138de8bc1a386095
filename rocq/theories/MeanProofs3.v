(** * Executions among goroutines that keep to some keys (C116). *)
From Verif Require Import GoBase GoStrings GoStringsProofs Regex DatasetModel LangModel DatasetSpec DatasetProofs DatasetProofs2 DatasetProofs3
  TemplateModel TemplateSpec TemplateProofs5 RenderSpec RenderProofs RenderProofs2 HoleSpec ParModel MeanSpec MeanProofs MeanProofs2.
Local Open Scope nat_scope.

Lemma rtc_course {A} (s s' : heap * list (act A)) : rtc par_step s s' -> exists T path, course T path /\ path 0 = s /\ path T = s'.
Proof.
  induction 1 as [s|s u s' Hs _ (T & path & Hc & H0 & HT)]; [exists 0, (fun _ => s); split; [intros m Hm; lia|done]|].
  exists (S T), (fun m => match m with 0 => s | S m' => path m' end). split; [|done]. intros [|m] Hm; [by rewrite H0|]. apply Hc. lia.
Qed.
Section Tame.
  Context (W : bytes -> Prop) (D : loc -> Prop) (Wcounter : W (B ".counter")).
  Lemma gentle_id : gentle W D (fun h => h).
  Proof. intros h x _. destruct (h !! x) as [[m|w|xs|xs]|]; try done. by exists m. Qed.
  Lemma gentle_set n d k v : W k -> gentle W D (fun h => match dset n h d k v with Ok h1 => h1 | _ => h end).
  Proof.
    intros Hk h x Hx. destruct (dset n h d k v) as [h1| |] eqn:E; [|by apply gentle_id..].
    apply dset_inside in E as (y & m & Hi & ->). apply inside_at in Hi. destruct (decide (y = x)) as [->|Hne].
    - rewrite Hi, lookup_insert. eexists. split; [done|]. intros k' Hk'. rewrite lookup_insert_ne; [done|]. by intros <-.
    - rewrite lookup_insert_ne by done. by apply gentle_id.
  Qed.
  Lemma tame_bind {A C} (m : act A) (f : A -> act C) : tame W D m -> (forall a, tame W D (f a)) -> tame W D (abind m f).
  Proof. intros Hm Hf. induction m as [a| | |w k IH]; cbn; try done. destruct Hm as [H1 H2]. split; [done|]. intros h. apply IH, H2. Qed.
  Lemma tame_lift {A} (r : outcome A) : tame W D (lift r).
  Proof. by destruct r. Qed.
  Lemma tame_read {A} (f : heap -> outcome A) : tame W D (read f).
  Proof. split; [apply gentle_id|]. intros h. apply tame_lift. Qed.
  Lemma tame_set n d k v : W k -> tame W D (write (fun h => dset n h d k v)).
  Proof. intros Hk. split; [by apply gentle_set|]. intros h. by destruct (dset n h d k v). Qed.
  Ltac tame := repeat first [apply tame_read | apply tame_lift | done | by apply tame_set | apply tame_bind; [|intros ?] | case_match].
  Context (F : golib) (ord : heap -> gmap bytes value -> list (bytes * value)) (langs : nat -> option lang) (th : theap).
  Lemma tame_search n sc key : tame W D (p_search n sc key).
  Proof. induction sc as [|d sc IH]; cbn [p_search]; tame. Qed.
  Lemma tame_string n xs key : tame W D (p_string F ord n xs key).
  Proof. unfold p_string. apply tame_bind; [apply tame_search|]. intros r. tame. Qed.
  Section Body.
    Context (n : nat) (lg : option lang) (inj : option (list loc) -> loc -> act (option (list loc) * bytes)) (Hinj : forall sc t, tame W D (inj sc t)).
    Lemma tame_run sc t : tame W D (p_run inj sc t).
    Proof. unfold p_run. apply tame_bind; [apply Hinj|]. by intros [? ?]. Qed.
    Lemma tame_run_opt sc t : tame W D (p_run_opt inj sc t).
    Proof. destruct t; [apply tame_run|done]. Qed.
    Ltac body := repeat first [apply tame_read | apply tame_lift | done | by apply tame_set | apply tame_run | apply tame_run_opt | apply tame_search | apply tame_string | apply Hinj
      | apply tame_bind; [|intros ?] | case_match].
    Lemma tame_reference sc t xid : tame W D (p_reference F ord th n inj sc t xid).
    Proof. unfold p_reference, p_non_nil, p_data. body. Qed.
    Lemma tame_loop k : forall i sc t b x c, tame W D (p_loop th n inj k i sc t b x c).
    Proof. induction k as [|k IH]; intros i sc t b x c; cbn [p_loop]; [done|]. body; apply IH. Qed.
    Lemma tame_range sc t s : tame W D (p_range th n inj sc t s).
    Proof. unfold p_range, p_collection, p_data. body; apply tame_loop. Qed.
    Lemma tame_condition sc t s : tame W D (p_condition F ord th n inj sc t s).
    Proof. unfold p_condition, p_data. body. Qed.
    Lemma tame_param sc t p : tame W D (p_param F ord th n lg inj sc t p).
    Proof. unfold p_param. repeat (case_bool_decide; [first [done|apply tame_reference|apply tame_range|apply tame_condition|body]|]). done. Qed.
    Lemma tame_params ps : forall sc t, tame W D (p_params F ord th n lg inj sc t ps).
    Proof. induction ps as [|p ps IH]; intros sc t; cbn [p_params]; [done|]. apply tame_bind; [apply tame_param|]. intros [sc1 a]. apply tame_bind; [apply IH|]. by intros [? ?]. Qed.
  End Body.
  Lemma tame_injector n : forall lg sc t, tame W D (p_injector F ord th n lg sc t).
  Proof.
    induction n as [|n IH]; intros lg sc t; cbn [p_injector]; [done|]. case_match; [|done]. case_match; [|done].
    apply tame_bind; [apply tame_params; intros; apply IH|]. by intros [? ?].
  Qed.
  Lemma tame_execute n t data : tame W D (p_execute F ord langs th n t data).
  Proof.
    unfold p_execute. destruct data as [d|]; [apply tame_bind; [apply tame_read|]; intros r|]; (apply tame_bind; [apply tame_injector|]; by intros [? ?]).
  Qed.
  Lemma tame_step (s s' : heap * list (act bytes)) : Forall (tame W D) s.2 -> par_step s s' -> Forall (tame W D) s'.2 /\ exists w, gentle W D w /\ s'.1 = w s.1.
  Proof.
    intros Hf Hs. destruct Hs as [h ps i w k Hi]. cbn [fst snd] in *. pose proof (Forall_lookup_1 _ _ _ _ Hf Hi) as [H1 H2]. split; [|by exists w].
    apply Forall_insert; [done|]. apply H2.
  Qed.
End Tame.
Lemma gentle_untouched W h0 d w h : gentle W (seen W h0 d) w -> untouched W h0 d h -> untouched W h0 d (w h).
Proof.
  intros Hg Hu x Hx. pose proof (Hu x Hx) as E. pose proof (Hg h x Hx) as G. destruct (h0 !! x) as [[m|o|xs|xs]|]; [|rewrite E in G; exact G..].
  destruct E as (m' & E & Em). rewrite E in G. destruct G as (m2 & G & Gm). exists m2. split; [done|]. intros k Hk. by rewrite Gm, Em.
Qed.
Lemma tame_unseen F ord langs th n t d (W : bytes -> Prop) h0 ps0 h ps i out : compiled th ->
  ps0 !! i = Some (p_execute F ord langs th n t (Some d)) -> rtc par_step (h0, ps0) (h, ps) -> ps !! i = Some (Ret out) ->
  (forall k, W k -> ">"%char ∉ k) -> W (B ".counter") -> ~ W (B "#") -> Forall (tame W (seen W h0 d)) ps0 ->
  (forall x Tx l, reaches th t x -> th !! x = Some Tx -> t_root Tx = Some (map stored l) -> Forall (blind W h0 d) l) ->
  exists h', executes F ord langs th h0 t d h' out.
Proof.
  intros Hc Hp Hs He W1 W2 W3 Ht Hb. apply rtc_course in Hs as (T & path & Hcs & H0 & HT).
  assert (Hinv : forall m, m <= T -> Forall (tame W (seen W h0 d)) (path m).2 /\ untouched W h0 d (path m).1).
  { induction m as [|m IH]; intros Hm; [rewrite H0; split; [done|apply untouched_refl]|]. destruct (IH ltac:(lia)) as [I1 I2].
    destruct (tame_step W _ _ _ I1 (Hcs m ltac:(lia))) as (J1 & w & Hg & ->). split; [done|]. by apply gentle_untouched. }
  assert (E0 : (path 0).1 = h0) by (by rewrite H0).
  destruct (execute_unseen F ord langs th n t d W path T i out) as (h' & R); try done.
  - by rewrite H0.
  - by rewrite HT.
  - intros m Hm. rewrite E0. by apply Hinv.
  - by rewrite E0.
  - rewrite E0 in R. by exists h'.
Qed.

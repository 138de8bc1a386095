(** * One goroutine against any others; LoadString alone (C118). *)
From Verif Require Import GoBase GoStrings GoStringsProofs Regex DatasetModel LangModel DatasetSpec TemplateModel TemplateSpec RenderSpec
  CopyModel CopyProofs4 EditModel.

(** ** What a goroutine keeps and may rely on: [I] at every moment, [R] from one moment to a later one *)
Section Holds.
  Context (I : theap -> Prop) (R : theap -> theap -> Prop).
  Context (Rrefl : forall th, R th th) (Rtrans : forall a b c, R a b -> R b c -> R a c).
  Fixpoint holds {A} (Ef Eo : Prop) (p : tact A) (th : theap) (Phi : A -> theap -> Prop) : Prop :=
    match p with
    | TRet a => Phi a th
    | TFail => Ef
    | TOut => Eo
    | TAct w k => forall th1, R th th1 -> I th1 -> R th1 (w th1) /\ I (w th1) /\ holds Ef Eo (k th1) (w th1) Phi
    end.
  Lemma holds_bind {A C} Ef Eo (p : tact A) (f : A -> tact C) th (Phi : C -> theap -> Prop) :
    holds Ef Eo p th (fun a th' => holds Ef Eo (f a) th' Phi) -> holds Ef Eo (tbind p f) th Phi.
  Proof.
    revert th. induction p as [a| | |w k IH]; intros th H; [done..|]. cbn in *. intros th1 H1 H2. destruct (H th1 H1 H2) as (Ha & Hb & Hc). split; [done|]. split; [done|].
    by apply IH.
  Qed.
  Lemma holds_weaken {A} (Ef Eo Ef' Eo' : Prop) (p : tact A) th (Phi Psi : A -> theap -> Prop) : (Ef -> Ef') -> (Eo -> Eo') ->
    (forall a th', R th th' -> Phi a th' -> Psi a th') -> holds Ef Eo p th Phi -> holds Ef' Eo' p th Psi.
  Proof using Rrefl Rtrans.
    intros He Ho. revert th. induction p as [a| | |w k IH]; intros th HP H; cbn in *; [by apply HP|by apply He|by apply Ho|].
    intros th1 H1 H2. destruct (H th1 H1 H2) as (Ha & Hb & Hc). split; [done|]. split; [done|]. apply IH; [|done].
    intros a th' HR. apply HP. eapply Rtrans; [exact H1|]. by eapply Rtrans.
  Qed.
  Lemma holds_later {A} Ef Eo (p : tact A) th th' (Phi : A -> theap -> Prop) : (forall a u v, R u v -> Phi a u -> Phi a v) -> R th th' ->
    holds Ef Eo p th Phi -> holds Ef Eo p th' Phi.
  Proof using Rtrans. intros HP HR. destruct p as [a| | |w k]; cbn; [by apply HP|done|done|]. intros H th1 H1. apply H. by eapply Rtrans. Qed.
  Lemma holds_field {A} Ef Eo t (f : tmpl -> A) th (Phi : A -> theap -> Prop) :
    (forall th1, R th th1 -> I th1 -> match th1 !! t with Some T => Phi (f T) th1 | None => Ef end) -> holds Ef Eo (field t f) th Phi.
  Proof using Rrefl. intros H th1 H1 H2. split; [done|]. split; [done|]. specialize (H th1 H1 H2). by destruct (th1 !! t). Qed.
  Lemma holds_assign Ef Eo t f th (Phi : unit -> theap -> Prop) :
    (forall th1, R th th1 -> I th1 -> match th1 !! t with Some T => R th1 (alter f t th1) /\ I (alter f t th1) /\ Phi tt (alter f t th1) | None => Ef end) ->
    holds Ef Eo (assign t f) th Phi.
  Proof using Rrefl.
    intros H th1 H1 H2. specialize (H th1 H1 H2). destruct (th1 !! t) as [T|] eqn:E; [done|]. assert (alter f t th1 = th1) as ->; [|done].
    apply map_eq. intros x. destruct (decide (x = t)) as [->|Hne]; [by rewrite lookup_alter, E|by rewrite lookup_alter_ne].
  Qed.
  Lemma holds_make Ef Eo T th (Phi : loc -> theap -> Prop) :
    (forall th1 c, R th th1 -> I th1 -> th1 !! c = None -> R th1 (<[c := T]> th1) /\ I (<[c := T]> th1) /\ Phi c (<[c := T]> th1)) -> holds Ef Eo (make T) th Phi.
  Proof.
    intros H th1 H1 H2. cbn. assert (Hf : th1 !! fresh (dom th1) = None) by (apply not_elem_of_dom, is_fresh). destruct (H th1 _ H1 H2 Hf) as (Ha & Hb & Hc). done.
  Qed.
  Lemma holds_lift {A} Ef Eo (o : outcome A) th (Phi : A -> theap -> Prop) : match o with Ok a => Phi a th | Panic => Ef | NoFuel => Eo end -> holds Ef Eo (tlift o) th Phi.
  Proof. by destruct o. Qed.
  (** Many goroutines. *)
  Section Many.
    Context {A : Type} (Ef Eo : nat -> Prop) (Phi : nat -> A -> theap -> Prop) (HPhi : forall i a u v, R u v -> Phi i a u -> Phi i a v).
    Definition all_hold (th : theap) (ps : list (tact A)) : Prop := I th /\ forall i p, ps !! i = Some p -> holds (Ef i) (Eo i) p th (Phi i).
    Lemma all_step th ps th' ps' : all_hold th ps -> tstep (th, ps) (th', ps') -> all_hold th' ps'.
    Proof using Rrefl Rtrans HPhi.
      intros [HI HS] Hs. remember (th, ps) as s eqn:Es. remember (th', ps') as s' eqn:Es'. destruct Hs as [h qs i f k Hi]. injection Es as -> ->. injection Es' as <- <-.
      destruct (HS i _ Hi th (Rrefl th) HI) as (Ha & Hb & Hc). split; [done|]. intros j p Hj. destruct (decide (j = i)) as [->|Hne].
      - rewrite list_lookup_insert in Hj by (by eapply lookup_lt_Some). by injection Hj as <-.
      - rewrite list_lookup_insert_ne in Hj by done. eapply holds_later; [by apply HPhi|exact Ha|]. by apply HS.
    Qed.
    Lemma all_steps th ps th' ps' : all_hold th ps -> rtc tstep (th, ps) (th', ps') -> all_hold th' ps'.
    Proof using Rrefl Rtrans HPhi.
      intros HG H. remember (th, ps) as s eqn:Es. remember (th', ps') as s' eqn:Es'. revert th ps th' ps' HG Es Es'.
      induction H as [s|s [th1 ps1] s' Hs _ IH]; intros th ps th' ps' HG Es Es'; [subst s; by injection Es' as <- <-|]. subst s.
      eapply (IH th1 ps1 th' ps'); [|done|done]. by eapply all_step.
    Qed.
  End Many.
End Holds.
Lemma steps_length {A} (s s' : theap * list (tact A)) : rtc tstep s s' -> length s'.2 = length s.2.
Proof. intros H. induction H as [|s1 s2 s3 Hs1 _ IH]; [done|]. rewrite IH. destruct Hs1. cbn. by rewrite insert_length. Qed.

(** ** LoadString and AddTemplate alone *)
Lemma alone_add th t name x : is_Some (th !! t) -> is_Some (th !! x) -> talone (t_add t name x) th = Ok (add_template th t name x, tt).
Proof.
  intros [T HT] [X HX]. unfold t_add, add_template. rewrite talone_bind. cbn [talone field]. rewrite HT. cbn [talone obind]. rewrite talone_bind.
  set (m := match t_subs T with Some m => m | None => ∅ end). set (th1 := match t_subs T with Some _ => th | None => alter (with_subs (Some ∅)) t th end).
  assert (E1 : talone (match t_subs T with None => assign t (with_subs (Some ∅)) | Some _ => TRet tt end) th = Ok (th1, tt)).
  { unfold th1. destruct (t_subs T); [done|]. cbn [talone assign]. by rewrite HT. }
  rewrite E1. cbn [obind]. rewrite talone_bind. cbn [talone assign].
  assert (Hx1 : is_Some (th1 !! x)) by (unfold th1; destruct (t_subs T); [by exists X|apply lookup_alter_is_Some; by exists X]). destruct Hx1 as [X1 HX1]. rewrite HX1. cbn [talone obind put].
  assert (Ht1 : exists T1, th1 !! t = Some T1 /\ t_subs T1 = Some m).
  { unfold th1, m. destruct (t_subs T) eqn:Es; [by exists T|]. rewrite lookup_alter, HT. by eexists. }
  destruct Ht1 as (T1 & HT1 & Hm1).
  assert (Ht2 : exists T2, alter (with_father (Some t)) x th1 !! t = Some T2 /\ t_subs T2 = Some m).
  { destruct (decide (x = t)) as [->|Hne]; [rewrite lookup_alter, HT1; by eexists|rewrite lookup_alter_ne by done; by exists T1]. }
  destruct Ht2 as (T2 & HT2 & Hm2). rewrite HT2, Hm2. cbn [talone]. f_equal. f_equal. apply map_eq. intros y. fold m.
  destruct (decide (y = t)) as [->|Hy].
  - rewrite !lookup_alter. rewrite HT2. cbn. assert (E : alter (fun X0 => Tmpl (t_name X0) (t_root X0) (t_subs X0) (Some t)) x th !! t = Some (if decide (x = t) then with_father (Some t) T else T)).
    { destruct (decide (x = t)) as [->|Hne]; [by rewrite lookup_alter, HT|by rewrite lookup_alter_ne]. }
    rewrite E. cbn. rewrite Hm2. f_equal. unfold with_subs.
    assert (E2 : t_name T2 = t_name T /\ t_root T2 = t_root T /\ t_father T2 = if decide (x = t) then Some t else t_father T).
    { destruct (decide (x = t)) as [->|Hne].
      - rewrite lookup_alter, HT1 in HT2. injection HT2 as <-. cbn. unfold th1 in HT1. destruct (t_subs T); [by simplify_eq|]. rewrite lookup_alter, HT in HT1. by injection HT1 as <-.
      - rewrite lookup_alter_ne in HT2 by done. assert (T2 = T1) as -> by congruence. unfold th1 in HT1. destruct (t_subs T); [by simplify_eq|]. rewrite lookup_alter, HT in HT1. by injection HT1 as <-. }
    destruct E2 as (-> & -> & ->). by destruct (decide (x = t)).
  - assert (Ho : forall f (u : theap), alter f t u !! y = u !! y) by (intros f u; by apply lookup_alter_ne). rewrite !Ho. destruct (decide (y = x)) as [->|Hyx].
    + rewrite !lookup_alter. f_equal. unfold th1. destruct (t_subs T); [done|]. by rewrite lookup_alter_ne.
    + rewrite !lookup_alter_ne by done. unfold th1. destruct (t_subs T); [done|]. by rewrite lookup_alter_ne.
Qed.
Lemma add_keeps th t name x y : is_Some (th !! y) -> is_Some (add_template th t name x !! y).
Proof. intros H. unfold add_template. destruct (th !! t); [|done]. by apply lookup_alter_is_Some, lookup_alter_is_Some. Qed.
Lemma alone_register th t name x : is_Some (th !! t) -> is_Some (th !! x) -> talone (t_register t name x) th = Ok (register th t name x, tt).
Proof.
  intros Ht Hx. unfold t_register, register. destruct (bool_decide _); [|by apply alone_add]. generalize (split_on "|"%char name) as l. intros l. revert th Ht Hx.
  induction l as [|v l IH]; intros th Ht Hx; [done|]. destruct v as [|c v]; [by apply IH|]. cbn [t_add_all fold_left]. rewrite talone_bind, alone_add by done. cbn [obind].
  apply IH; by apply add_keeps.
Qed.
Lemma register_keeps th t name x y : is_Some (th !! y) -> is_Some (register th t name x !! y).
Proof.
  intros H. unfold register. destruct (bool_decide _); [|by apply add_keeps]. generalize (split_on "|"%char name) as l. intros l. revert th H.
  induction l as [|v l IH]; intros th H; [done|]. cbn [fold_left]. apply IH. destruct v; [done|]. by apply add_keeps.
Qed.
Definition whole_state (s : lstate) (th : theap) : cstate := CState (l_starts s) (l_uppers s) (l_actual s) (l_compiled s) th.
Definition alive (s : lstate) (th : theap) : Prop := is_Some (th !! l_actual s) /\ Forall (fun x => is_Some (th !! x)) (l_uppers s).
Lemma alone_second k : forall i s th, alive s th -> exists s' th' ok, talone (t_second_pass k i s) th = Ok (th', (s', ok)) /\ second_pass k i (whole_state s th) = (whole_state s' th', ok) /\
  forall x, is_Some (th !! x) -> is_Some (th' !! x).
Proof.
  induction k as [|k IH]; intros i s th Ha; [by exists s, th, true|]. cbn [t_second_pass second_pass]. rewrite talone_bind. unfold t_second_step, second_step. cbn [whole_state s_compiled].
  destruct (l_compiled s !! i) as [x|]; [|cbn [talone obind]; by apply IH]. destruct (bool_decide (p_type x = MStart)).
  { rewrite talone_bind. cbn [talone make talloc fst snd obind]. set (a := fresh (dom th)). set (th1 := <[a := _]> th).
    assert (H1 : forall x, is_Some (th !! x) -> is_Some (th1 !! x)) by (intros z Hz; unfold th1; apply lookup_insert_is_Some'; by right).
    destruct (IH (S i) (LState (i :: l_starts s) (l_actual s :: l_uppers s) a (l_compiled s)) th1) as (s' & th' & ok & E1 & E2 & Hk).
    - destruct Ha as [Ha Hb]. split; cbn; [unfold th1; rewrite lookup_insert; by eexists|]. constructor; [by apply H1|]. eapply Forall_impl; [exact Hb|]. intros z. apply H1.
    - exists s', th', ok. split; [done|]. split; [done|]. intros z Hz. by apply Hk, H1. }
  destruct (bool_decide (p_type x = MEnd)); [|cbn [talone obind]; by apply IH]. cbn [whole_state s_starts s_uppers].
  destruct (l_starts s) as [|sp starts] eqn:Es; [cbn [talone obind]; by exists s, th, false|]. destruct (l_uppers s) as [|up uppers] eqn:Eu; [cbn [talone obind]; by exists s, th, false|].
  destruct Ha as [[A HA] Hb]. rewrite Eu in Hb. apply Forall_cons in Hb as [Hup Hups]. cbv zeta. rewrite talone_bind. cbn [talone assign]. rewrite HA. cbn [talone obind].
  rewrite talone_bind. cbn [talone field]. rewrite lookup_alter, HA. cbn [talone obind fmap option_fmap option_map].
  match goal with |- context [alter (with_root ?r) (l_actual s) th] => set (th1 := alter (with_root r) (l_actual s) th) end.
  assert (H1 : forall x, is_Some (th !! x) -> is_Some (th1 !! x)) by (intros z Hz; by apply lookup_alter_is_Some).
  rewrite talone_bind, alone_register by (apply H1; [done||by exists A]). cbn [obind talone s_actual whole_state s_heap s_compiled].
  rewrite HA.
  match goal with |- context [second_pass k (S i) (CState starts uppers up ?c1 ?t2)] =>
    destruct (IH (S i) (LState starts uppers up c1) t2) as (s' & th' & ok & E1 & E2 & Hk) end.
  - split; cbn; [by apply register_keeps, H1|]. eapply Forall_impl; [exact Hups|]. intros z Hz. by apply register_keeps, H1.
  - exists s', th', ok. split; [exact E1|]. split; [exact E2|]. intros z Hz. by apply Hk, register_keeps, H1.
Qed.
Lemma alone_load th t data : is_Some (th !! t) -> talone (t_load t data) th = Ok (compile th t data).
Proof.
  intros Ht. unfold t_load, compile. rewrite talone_bind.
  destruct (alone_second (length (first_pass data)) 0 (LState [] [] t (first_pass data)) th) as (s' & th' & ok & E1 & E2 & Hk); [split; [done|by constructor]|].
  rewrite E1. cbn [obind]. change (CState [] [] t (first_pass data) th) with (whole_state (LState [] [] t (first_pass data)) th). rewrite E2. destruct ok; [|done].
  cbn [whole_state s_starts]. destruct (l_starts s'); [|done]. rewrite talone_bind. cbn [talone assign]. destruct (Hk t Ht) as [T HT]. by rewrite HT.
Qed.

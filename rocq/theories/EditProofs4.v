(** * Executing templates while their text is replaced and other templates change (C118). *)
From Verif Require Import GoBase GoStrings GoStringsProofs Regex DatasetModel LangModel DatasetSpec TemplateModel TemplateSpec RenderSpec
  CopyModel CopySpec CopyProofs3 CopyProofs4 EditModel EditSpec EditProofs.

(** ** LoadString of a text without boxes *)
Definition root_after (data : bytes) : list param := filter (fun p => live p = true) (first_pass data).
Lemma boxless_pass l : (forall p, p ∈ l -> p_type p <> MStart /\ p_type p <> MEnd) -> forall k i us a, t_second_pass k i (LState [] us a l) = TRet (LState [] us a l, true).
Proof.
  intros Hl k. induction k as [|k IH]; intros i us a; [done|]. cbn [t_second_pass]. unfold t_second_step. cbn [l_compiled]. destruct (l !! i) as [x|] eqn:Ex; [|cbn [tbind]; apply IH].
  destruct (Hl x) as [H1 H2]; [by eapply elem_of_list_lookup_2|]. rewrite bool_decide_eq_false_2 by done. rewrite bool_decide_eq_false_2 by done. cbn [tbind]. apply IH.
Qed.
Lemma boxless_load t data : boxless data -> t_load t data = (_ <~ assign t (with_root (Some (root_after data))); TRet true).
Proof. intros Hb. unfold t_load. rewrite boxless_pass by done. done. Qed.
Lemma boxless_compile th t data : is_Some (th !! t) -> boxless data -> (compile th t data).1 = alter (with_root (Some (root_after data))) t th.
Proof.
  intros Ht Hb. pose proof (alone_load th t data Ht) as H. rewrite (boxless_load t data Hb) in H. destruct Ht as [T HT]. cbn in H. rewrite HT in H. cbn in H. destruct (compile th t data) as [th1 ok]. by injection H as <- _.
Qed.

Section Swap.
  Context (F : golib) (ord : heap -> gmap bytes value -> list (bytes * value)) (langs : nat -> option lang).
  Context (th : theap) (V : loc -> Prop) (Hgroup : group th V) (roles : list role) (Hfair : forall r, r ∈ roles -> fair th V r).
  (** What stays true. *)
  Definition steady (u : theap) : Prop :=
    (forall x X, V x -> th !! x = Some X -> exists X', u !! x = Some X' /\ t_subs X' = t_subs X /\ t_father X' = t_father X /\
      (t_root X' = t_root X \/ exists data, Reload x data ∈ roles /\ t_root X' = Some (root_after data))) /\
    (forall x X, ~ V x -> u !! x = Some X -> (forall n y, subs_of X !! n = Some y -> ~ V y) /\ (forall f, t_father X = Some f -> ~ V f)).
  Definition keeps (u u' : theap) : Prop := forall x X X', V x -> u !! x = Some X -> u' !! x = Some X' -> is_Some (t_root X) -> is_Some (t_root X').
  Definition keeps' (u u' : theap) : Prop := keeps u u' /\ forall x, is_Some (u !! x) -> is_Some (u' !! x).
  Lemma keeps_refl u : keeps' u u.
  Proof. split; [|done]. intros x X X' _ H1 H2. congruence. Qed.
  Lemma keeps_trans a b c : keeps' a b -> keeps' b c -> keeps' a c.
  Proof.
    intros [A1 A2] [B1 B2]. split; [|auto]. intros x X X' Hv HX HX' Hr. destruct (A2 x) as [Y HY]; [by exists X|]. eapply B1; [done|exact HY|done|]. by eapply A1.
  Qed.
  Notation hold := (holds steady keeps').

  (** ** Other templates *)
  Definition outer {A} (p : tact A) (Q : A -> Prop) : Prop := forall u, hold True True p u (fun a _ => Q a).
  Lemma outer_bind {A C} (p : tact A) (f : A -> tact C) (Q : A -> Prop) Q' : outer p Q -> (forall a, Q a -> outer (f a) Q') -> outer (tbind p f) Q'.
  Proof. intros Hp Hf u. apply holds_bind. eapply holds_weaken; [apply keeps_refl|apply keeps_trans|done|done| |apply Hp]. intros a u' _ Ha. by apply Hf. Qed.
  Lemma outer_ret {A} (a : A) (Q : A -> Prop) : Q a -> outer (TRet a) Q.
  Proof. by intros H u. Qed.
  Lemma outer_field {A} t (f : tmpl -> A) (Q : A -> Prop) :
    (forall u T, steady u -> u !! t = Some T -> Q (f T)) -> outer (field t f) Q.
  Proof. intros H u. apply holds_field; [apply keeps_refl|]. intros u1 _ H1. destruct (u1 !! t) as [T|] eqn:ET; [by eapply H|done]. Qed.
  Lemma outer_write t f (g : theap -> tact unit) (Q : unit -> Prop) : ~ V t -> (forall u, g u = TRet tt \/ g u = TFail) ->
    (forall u T, steady u -> u !! t = Some T -> (forall n y, subs_of (f T) !! n = Some y -> ~ V y) /\ (forall y, t_father (f T) = Some y -> ~ V y)) -> Q tt ->
    outer (TAct (alter f t) g) Q.
  Proof.
    intros Ht Hg HT HQ u u1 _ Hs. split; [|split].
    - split; [|intros x Hx; by apply lookup_alter_is_Some]. intros x X X' Hv HX HX'. rewrite lookup_alter_ne in HX' by (intros ->; done). congruence.
    - destruct Hs as [S1 S2]. split.
      + intros x X Hv HX. rewrite lookup_alter_ne by (intros ->; done). by apply S1.
      + intros x X Hv HX. destruct (decide (x = t)) as [->|Hne]; [|rewrite lookup_alter_ne in HX by done; by eapply S2].
        rewrite lookup_alter in HX. destruct (u1 !! t) as [T|] eqn:ET; [|done]. injection HX as <-. by eapply HT.
    - by destruct (Hg u1) as [-> | ->].
  Qed.
  Lemma outer_assign t f (Q : unit -> Prop) : ~ V t ->
    (forall u T, steady u -> u !! t = Some T -> (forall n y, subs_of (f T) !! n = Some y -> ~ V y) /\ (forall y, t_father (f T) = Some y -> ~ V y)) -> Q tt ->
    outer (assign t f) Q.
  Proof. intros Ht HT HQ. apply outer_write; [done| |done|done]. intros u. destruct (u !! t); [by left|by right]. Qed.
  Lemma outer_root t r : ~ V t -> outer (assign t (with_root r)) (fun _ => True).
  Proof. intros Ht. apply outer_assign; [done| |done]. intros u T [_ S2] HT. by apply (S2 t T Ht HT). Qed.
  Lemma outer_subs t m : ~ V t -> (forall n y, m !! n = Some y -> ~ V y) -> outer (assign t (with_subs (Some m))) (fun _ => True).
  Proof. intros Ht Hm. apply outer_assign; [done| |done]. intros u T [_ S2] HT. split; [exact Hm|]. by apply (S2 t T Ht HT). Qed.
  Lemma outer_father t f : ~ V t -> (forall y, f = Some y -> ~ V y) -> outer (assign t (with_father f)) (fun _ => True).
  Proof. intros Ht Hf. apply outer_assign; [done| |done]. intros u T [_ S2] HT. split; [|exact Hf]. by apply (S2 t T Ht HT). Qed.
  Lemma outer_put t name x : ~ V t -> ~ V x -> outer (put t name x) (fun _ => True).
  Proof.
    intros Ht Hx. apply outer_write; [done| | |done].
    - intros u. destruct (u !! t) as [T|]; [|by right]. destruct (t_subs T); [by left|by right].
    - intros u T [_ S2] HT. destruct (S2 t T Ht HT) as [H1 H2]. split; [|exact H2]. intros n y. unfold subs_of in *. cbn. destruct (t_subs T) as [m|]; [|done].
      destruct (decide (n = name)) as [->|Hne]; [rewrite lookup_insert; by intros [= <-]|rewrite lookup_insert_ne by done; apply H1].
  Qed.
  Lemma outer_make T : t_subs T = None -> t_father T = None -> outer (make T) (fun c => ~ V c).
  Proof.
    intros Hs Hf u. apply holds_make. intros u1 c _ [S1 S2] Hc.
    assert (Hcv : ~ V c). { intros Hv. destruct (proj1 Hgroup c Hv) as [C HC]. destruct (S1 c C Hv HC) as (C' & HC' & _). congruence. }
    split; [|split; [|done]].
    - split; [|intros x Hx; apply lookup_insert_is_Some'; by right]. intros x X X' Hv HX HX'. rewrite lookup_insert_ne in HX' by (intros <-; done). congruence.
    - split.
      + intros x X Hv HX. rewrite lookup_insert_ne by (intros <-; done). by apply S1.
      + intros x X Hv HX. destruct (decide (x = c)) as [->|Hne]; [|rewrite lookup_insert_ne in HX by done; by eapply S2].
        rewrite lookup_insert in HX. injection HX as <-. split; [|congruence]. intros n y. unfold subs_of. by rewrite Hs.
  Qed.
  Lemma outer_reads {A} (p : tact A) : reads_only p -> outer p (fun _ => True).
  Proof.
    intros Hp u. revert u. induction p as [a| | |w k IH]; intros u; [done..|]. destruct Hp as [H1 H2]. intros u1 _ Hs. rewrite H1. split; [apply keeps_refl|]. split; [done|]. apply IH, H2.
  Qed.
  Lemma outer_add t name x : ~ V t -> ~ V x -> outer (t_add t name x) (fun _ => True).
  Proof.
    intros Ht Hx. unfold t_add. eapply (outer_bind _ _ (fun _ => True)); [by apply outer_field|]. intros s _. eapply (outer_bind _ _ (fun _ => True)).
    { destruct s; [by apply outer_ret|]. apply outer_subs; [done|]. intros n y Hn. by rewrite lookup_empty in Hn. }
    intros _ _. eapply (outer_bind _ _ (fun _ => True)); [apply outer_father; [done|by intros y [= <-]]|]. intros _ _. by apply outer_put.
  Qed.
  Lemma outer_register t name x : ~ V t -> ~ V x -> outer (t_register t name x) (fun _ => True).
  Proof.
    intros Ht Hx. unfold t_register. destruct (bool_decide _); [|by apply outer_add]. induction (split_on "|"%char name) as [|v l IH]; [by apply outer_ret|]. destruct v as [|c v]; [done|]. cbn [t_add_all].
    eapply outer_bind; [by apply outer_add|]. done.
  Qed.
  Lemma outer_second k : forall i s, Forall (fun x => ~ V x) (l_actual s :: l_uppers s) -> outer (t_second_pass k i s) (fun _ => True).
  Proof.
    induction k as [|k IH]; intros i s Hs; [by apply outer_ret|]. cbn [t_second_pass]. unfold t_second_step. apply Forall_cons in Hs as [Ha Hus].
    destruct (l_compiled s !! i) as [x|]; [|cbn [tbind]; apply IH; by constructor]. destruct (bool_decide (p_type x = MStart)).
    { eapply (outer_bind _ _ (fun o => forall s', o = Some s' -> Forall (fun x => ~ V x) (l_actual s' :: l_uppers s'))).
      - eapply outer_bind; [by apply outer_make|]. intros a Hav. apply outer_ret. intros s' [= <-]. cbn. constructor; [done|]. by constructor.
      - intros [s'|] Hs'; [apply IH; by apply Hs'|by apply outer_ret]. }
    destruct (bool_decide (p_type x = MEnd)); [|cbn [tbind]; apply IH; by constructor]. destruct (l_starts s) as [|sp starts]; [by apply outer_ret|]. destruct (l_uppers s) as [|up uppers]; [by apply outer_ret|].
    apply Forall_cons in Hus as [Hup Hus]. eapply (outer_bind _ _ (fun o => forall s', o = Some s' -> Forall (fun x => ~ V x) (l_actual s' :: l_uppers s'))).
    - eapply outer_bind; [by apply outer_root|]. intros _ _. eapply (outer_bind _ _ (fun _ => True)); [by apply outer_field|]. intros name _. eapply outer_bind; [by apply outer_register|].
      intros _ _. apply outer_ret. intros s' [= <-]. cbn. by constructor.
    - intros [s'|] Hs'; [apply IH; by apply Hs'|by apply outer_ret].
  Qed.
  Lemma outer_load t data : ~ V t -> outer (t_load t data) (fun _ => True).
  Proof.
    intros Ht. unfold t_load. eapply outer_bind; [apply outer_second; by repeat constructor|]. intros [s ok] _. destruct ok; [|by apply outer_ret]. destruct (l_starts s); [|by apply outer_ret].
    eapply outer_bind; [by apply outer_root|]. intros _ _. by apply outer_ret.
  Qed.
  Definition outside (r : option loc) : Prop := forall x, r = Some x -> ~ V x.
  Lemma outer_father_of t : ~ V t -> outer (field t t_father) outside.
  Proof. intros Ht. apply outer_field. intros u T [_ S2] HT x Hx. by eapply (S2 t T Ht HT). Qed.
  Lemma outer_get n name : forall t, ~ V t -> outer (t_get n t name) outside.
  Proof.
    induction n as [|n IH]; intros t Ht; [by intros u|]. cbn [t_get].
    assert (Hup : outer (t_up t (fun x => t_get n x name)) outside).
    { unfold t_up. eapply outer_bind; [by apply outer_father_of|]. intros [f|] _; [|by apply outer_ret]. eapply outer_bind; [by apply outer_father_of|]. intros [g|] Hg; [|by intros u]. apply IH. by apply Hg. }
    eapply (outer_bind _ _ (fun _ => True)); [by apply outer_field|]. intros [m|] _; [|done]. eapply (outer_bind _ _ outside).
    - apply outer_field. intros u T [_ S2] HT x Hx. destruct (S2 t T Ht HT) as [H1 _]. eapply (H1 name). unfold subs_of. by destruct (t_subs T).
    - intros [x|] Hx; [by apply outer_ret|done].
  Qed.
  Lemma outer_clone tord n : any_order tord -> forall t, ~ V t -> outer (t_clone tord n t) (fun c => ~ V c).
  Proof.
    intros Hord. induction n as [|n IH]; intros t Ht; [by intros u|]. cbn [t_clone]. eapply (outer_bind _ _ (fun _ => True)); [by apply outer_field|]. intros name _.
    eapply outer_bind; [by apply outer_make|]. intros c Hc. eapply (outer_bind _ _ (fun _ => True)); [by apply outer_field|]. intros r _. eapply (outer_bind _ _ (fun _ => True)).
    { destruct r; [|by apply outer_ret]. eapply (outer_bind _ _ (fun _ => True)); [by apply outer_field|]. intros [ps|] _; [by apply outer_root|by intros u]. }
    intros _ _. eapply (outer_bind _ _ (fun _ => True)); [by apply outer_field|]. intros s _. eapply (outer_bind _ _ (fun _ => True)).
    { destruct s; [|by apply outer_ret]. eapply (outer_bind _ _ (fun l => Forall (fun x => ~ V x) l.*2)).
      - intros u. unfold t_entries. intros u1 _ H1. split; [apply keeps_refl|]. split; [done|]. destruct (u1 !! t) as [T|] eqn:HT; [|done]. cbn. destruct (t_subs T) as [m|] eqn:Em; [|by constructor].
        apply Forall_forall. intros x Hx. apply elem_of_list_fmap in Hx as ([k y] & -> & Hy). rewrite (Hord u1 m) in Hy. apply elem_of_map_to_list in Hy. eapply (proj1 (proj2 H1 t T Ht HT) k). unfold subs_of. by rewrite Em.
      - intros l Hl. eapply (outer_bind _ _ (fun m' => forall k y, m' !! k = Some y -> ~ V y)); [|intros m' Hm'; by apply outer_subs].
        assert (H0 : forall k y, (∅ : gmap bytes loc) !! k = Some y -> ~ V y) by (intros k y Hk; by rewrite lookup_empty in Hk). revert H0. generalize (∅ : gmap bytes loc) as m0.
        induction l as [|[k x] l IHl]; intros m0 H0; [by apply outer_ret|]. cbn in Hl. apply Forall_cons in Hl as [Hx Hl]. cbn [t_clone_subs]. eapply outer_bind; [by apply IH|]. intros x' Hx'.
        eapply outer_bind; [apply outer_father; [done|by intros y [= <-]]|]. intros _ _. apply IHl; [done|]. intros k0 y. destruct (decide (k0 = k)) as [->|Hne]; [rewrite lookup_insert; by intros [= <-]|].
        rewrite lookup_insert_ne by done. apply H0. }
    intros _ _. eapply outer_bind; [by apply outer_father_of|]. intros f Hf. eapply outer_bind; [by apply outer_father|]. intros _ _. by apply outer_ret.
  Qed.
  Lemma outer_calls n : forall cs held h, Forall (fun x => ~ V x) held -> (forall i tord, Dup i tord ∈ cs -> any_order tord) -> outer (t_calls F ord langs n held h cs) (fun _ => True).
  Proof.
    assert (Hmap : forall {A C} (p : tact A) (g : A -> C), outer p (fun _ => True) -> outer (x <~ p; TRet (g x)) (fun _ => True)).
    { intros A C p g H. eapply outer_bind; [exact H|]. intros a _. by apply outer_ret. }
    induction cs as [|c cs IH]; intros held h Hh Hd; [by apply outer_ret|]. assert (Hd' : forall i tord, Dup i tord ∈ cs -> any_order tord) by (intros i tord Hi; eapply Hd; by right).
    assert (Hi : forall i t, held !! i = Some t -> ~ V t) by (by rewrite Forall_lookup in Hh).
    destruct c as [|i data|i name j|i tord|i name|i data]; cbn [t_calls].
    - eapply outer_bind; [by apply outer_make|]. intros c Hc. apply IH; [|done]. apply Forall_app. split; [done|by constructor].
    - destruct (held !! i) as [t|] eqn:Et; [|by apply IH]. eapply outer_bind; [apply outer_load; by eapply Hi|]. intros ok _. apply (Hmap _ _ _ (cons (Loaded ok))). by apply IH.
    - destruct (held !! i) as [t|] eqn:Et; [|by apply IH]. destruct (held !! j) as [x|] eqn:Ex; [|by apply IH]. eapply outer_bind; [apply outer_add; by eapply Hi|]. intros _ _. by apply IH.
    - destruct (held !! i) as [t|] eqn:Et; [|by apply IH]. eapply outer_bind; [apply outer_clone; [eapply Hd; by left|by eapply Hi]|]. intros c Hc. apply IH; [|done]. apply Forall_app. split; [done|by constructor].
    - destruct (held !! i) as [t|] eqn:Et; [|by apply IH]. eapply outer_bind; [apply outer_get; by eapply Hi|]. intros r Hr. apply (Hmap _ _ _ (cons _)). apply IH; [|done].
      destruct r as [x|]; [|done]. apply Forall_app. split; [done|]. constructor; [by apply Hr|constructor].
    - destruct (held !! i) as [t|] eqn:Et; [|by apply IH]. eapply outer_bind; [apply outer_reads, ro_execute|]. intros [h1 out] _. apply (Hmap _ _ _ (cons (Text out))). by apply IH.
  Qed.
  (** ** LoadString of a text without boxes *)
  Lemma reload_holds t data : Reload t data ∈ roles -> forall u, hold True True (ok <~ t_load t data; TRet [Loaded ok]) u (fun _ _ => True).
  Proof.
    intros Hr u. destruct (Hfair _ Hr) as (Hv & Htop & Hb). rewrite (boxless_load t data Hb). apply holds_bind, holds_bind. apply holds_assign; [apply keeps_refl|].
    intros u1 _ Hs. destruct (u1 !! t) as [T|] eqn:HT; [|done]. split; [|split; [|done]].
    - split; [|intros x Hx; by apply lookup_alter_is_Some]. intros x X X' Hvx HX HX'. destruct (decide (x = t)) as [->|Hne]; [|rewrite lookup_alter_ne in HX' by done; congruence].
      rewrite lookup_alter, HX in HX'. injection HX' as <-. by intros _; eexists.
    - destruct Hs as [S1 S2]. split.
      + intros x X Hvx HX. destruct (decide (x = t)) as [->|Hne]; [|rewrite lookup_alter_ne by done; by apply S1]. destruct (S1 t X Hvx HX) as (X' & HX' & E1 & E2 & _). rewrite lookup_alter, HX'. eexists. split; [done|]. cbn.
        split; [done|]. split; [done|]. right. by exists data.
      + intros x X Hvx HX. destruct (decide (x = t)) as [->|Hne]; [done|]. rewrite lookup_alter_ne in HX by done. by eapply S2.
  Qed.

  (** ** Execute: the templates as they were, with [r] for the Root of [t0] *)
  Section Reader.
    Context (t0 : loc) (Ht0 : V t0) (r : option (list param)).
    Definition base : theap := alter (with_root r) t0 th.
    Definition under (x : loc) : Prop := V x /\ base !! x = th !! x /\ forall data, Reload x data ∉ roles.
    Definition sim {A} (p : tact A) (Q : A -> Prop) : Prop :=
      forall u, hold (talone p base = Panic) (talone p base = NoFuel) p u (fun a _ => talone p base = Ok (base, a) /\ Q a).
    Lemma sim_bind {A C} (p : tact A) (f : A -> tact C) (Q : A -> Prop) Q' : sim p Q -> (forall a, Q a -> sim (f a) Q') -> sim (tbind p f) Q'.
    Proof using.
      intros Hp Hf u. apply holds_bind. eapply holds_weaken; [apply keeps_refl|apply keeps_trans| | | |apply Hp].
      - intros E. by rewrite talone_bind, E.
      - intros E. by rewrite talone_bind, E.
      - intros a u' _ [E Ha]. rewrite talone_bind, E. cbn [obind]. by apply Hf.
    Qed.
    Lemma sim_ret {A} (a : A) (Q : A -> Prop) : Q a -> sim (TRet a) Q.
    Proof using. by intros H u. Qed.
    Lemma sim_fail {A} (Q : A -> Prop) : sim TFail Q. Proof using. by intros u. Qed.
    Lemma sim_out {A} (Q : A -> Prop) : sim TOut Q. Proof using. by intros u. Qed.
    Lemma sim_lift {A} (o : outcome A) : sim (tlift o) (fun _ => True).
    Proof using. intros u. by destruct o. Qed.
    Lemma base_at x X : V x -> th !! x = Some X -> exists X', base !! x = Some X' /\ t_subs X' = t_subs X /\ t_father X' = t_father X.
    Proof using.
      intros Hv HX. unfold base. destruct (decide (x = t0)) as [->|Hne]; [rewrite lookup_alter, HX; by eexists|rewrite lookup_alter_ne by done; by exists X].
    Qed.
    Lemma sim_field {A} x (f : tmpl -> A) X (Q : A -> Prop) : V x -> th !! x = Some X ->
      (forall T T', t_subs T = t_subs X -> t_father T = t_father X -> t_subs T' = t_subs X -> t_father T' = t_father X -> f T = f T') -> Q (f X) -> sim (field x f) Q.
    Proof using.
      intros Hv HX Hf HQ u. destruct (base_at x X Hv HX) as (X0 & HX0 & E1 & E2). unfold field. cbn [talone]. rewrite HX0. intros u1 _ Hs. split; [apply keeps_refl|]. split; [done|].
      destruct (proj1 Hs x X Hv HX) as (X1 & HX1 & E3 & E4 & _). rewrite HX1. cbn. rewrite (Hf X0 X1) by done. split; [done|]. by rewrite (Hf X1 X).
    Qed.
    Lemma sim_subs x X : V x -> th !! x = Some X -> sim (field x t_subs) (eq (t_subs X)).
    Proof using. intros Hv HX. eapply sim_field; [done|done|congruence|done]. Qed.
    Lemma sim_father x X : V x -> th !! x = Some X -> sim (field x t_father) (eq (t_father X)).
    Proof using. intros Hv HX. eapply sim_field; [done|done|congruence|done]. Qed.
    Lemma sim_root x X : under x -> th !! x = Some X -> sim (field x t_root) (eq (t_root X)).
    Proof using.
      intros (Hv & HX0 & Hno) HX u. rewrite HX in HX0. unfold field. cbn [talone]. rewrite HX0. intros u1 _ Hs. split; [apply keeps_refl|]. split; [done|].
      destruct (proj1 Hs x X Hv HX) as (X1 & HX1 & _ & _ & E). rewrite HX1. cbn. assert (E' : t_root X1 = t_root X) by (destruct E as [E|(data & Hr & _)]; [done|by destruct (Hno data)]). by rewrite E'.
    Qed.
    Context (Htop0 : (exists data, Reload t0 data ∈ roles) \/ base = th).
    Definition among (o : option loc) : Prop := forall x, o = Some x -> under x.
    Lemma sub_under x X name y : V x -> th !! x = Some X -> subs_of X !! name = Some y -> under y.
    Proof using Hgroup Hfair Htop0.
      intros Hv HX Hy. assert (Hno : forall data, Reload y data ∉ roles) by (intros data Hr; destruct (Hfair _ Hr) as (_ & Ht & _); by eapply Ht).
      split; [by apply (proj1 (proj2 Hgroup) x X name y HX Hy)|]. split; [|done]. destruct Htop0 as [[data Hr]|E]; [|by rewrite E]. unfold base. rewrite lookup_alter_ne; [done|]. intros <-. by apply (Hno data).
    Qed.
    Lemma at_V x : V x -> exists X, th !! x = Some X.
    Proof using Hgroup. intros Hv. by apply (proj1 Hgroup x Hv). Qed.
    Lemma sim_get n name : forall t, V t -> sim (t_get n t name) among.
    Proof using Hgroup Hfair Htop0.
      induction n as [|n IH]; intros t Hv; [apply sim_out|]. cbn [t_get]. destruct (at_V t Hv) as [T HT].
      assert (Hup : sim (t_up t (fun x => t_get n x name)) among).
      { unfold t_up. eapply sim_bind; [by eapply sim_father|]. intros [f|] E; [|by apply sim_ret]. eapply sim_bind; [by eapply sim_father|]. intros [g|] E2; [|apply sim_fail]. apply IH.
        eapply (proj2 (proj2 Hgroup) t T g HT); [by rewrite <- E2|done]. }
      eapply sim_bind; [by eapply sim_subs|]. intros [m|] Em; [|done]. eapply (sim_bind _ _ among).
      - eapply sim_field; [done|exact HT|intros T1 T2 E1 _ E2 _; by rewrite E1, E2|]. intros x Hx. eapply (sub_under t T name); [done|done|]. unfold subs_of. by destruct (t_subs T).
      - intros [x|] Hx; [by apply sim_ret|done].
    Qed.
    Section Body.
      Context (n : nat) (lg : option lang) (inj : heap * option (list loc) -> loc -> tact (heap * option (list loc) * bytes)) (Hinj : forall st x, under x -> sim (inj st x) (fun _ => True)).
      Lemma sim_names t names : V t -> sim (t_names n t names) among.
      Proof using Hgroup Hfair Htop0. intros Hv. induction names as [|v names IH]; [by apply sim_ret|]. cbn. eapply sim_bind; [by apply sim_get|]. intros [x|] Hx; [by apply sim_ret|done]. Qed.
      Lemma sim_run_on st t : under t -> sim (t_run_on inj st t) (fun _ => True).
      Proof using Hinj. intros Ht. unfold t_run_on. eapply sim_bind; [by apply Hinj|]. intros [st1 out] _. by apply sim_ret. Qed.
      Lemma sim_run_opt st o : among o -> sim (t_run_opt inj st o) (fun _ => True).
      Proof using Hinj. intros Ho. destruct o as [t|]; [apply sim_run_on; by apply Ho|by apply sim_ret]. Qed.
      Lemma among_or o x : among o -> under x -> under (match o with Some y => y | None => x end).
      Proof using. intros Ho Hx. destruct o as [y|]; [by apply Ho|done]. Qed.
      Lemma sim_inner {A} st d t (k : heap * option (list loc) -> bytes -> option (list loc) -> tact A) (Q : A -> Prop) : under t ->
        (forall st2 out sc3, sim (k st2 out sc3) Q) ->
        sim (sc1 <~ tlift (spush st.2 d); '(st2, out) <~ inj (st.1, sc1) t; sc3 <~ tlift (spop st2.2); k st2 out sc3) Q.
      Proof using Hinj.
        intros Ht Hk. eapply sim_bind; [apply sim_lift|]. intros sc1 _. eapply sim_bind; [by apply Hinj|]. intros [st2 out] _. eapply sim_bind; [apply sim_lift|]. intros sc3 _. apply Hk.
      Qed.
      Lemma sim_reference st t xid : V t -> sim (t_reference F ord n inj st t xid) (fun _ => True).
      Proof using Hgroup Hfair Htop0 Hinj.
        intros Hv. assert (Hgen : forall template, sim (r <~ t_get n t template; match r with None => TRet (st, []) | Some subt => t_run_on inj st subt end) (fun _ => True)).
        { intros template. eapply sim_bind; [by apply sim_get|]. intros [x|] Hx; [apply sim_run_on; by apply Hx|by apply sim_ret]. }
        unfold t_reference. destruct xid as [|a [|field [|prefix [|e ws]]]]; [apply Hgen|apply Hgen| | |apply Hgen].
        - eapply sim_bind; [by apply sim_get|]. intros [x|] Hx; [|by apply sim_ret]. specialize (Hx x eq_refl). eapply sim_bind; [apply sim_lift|]. intros v _.
          destruct (v ≫= as_dataset st.1) as [d|]; [|by apply sim_run_on]. apply (sim_inner st d x (fun st2 out sc3 => TRet ((st2.1, sc3), [out]))); [done|]. intros. by apply sim_ret.
        - eapply sim_bind; [apply sim_lift|]. intros v _. eapply sim_bind; [by apply sim_names|]. intros o Ho. by apply sim_run_opt.
      Qed.
      Lemma sim_loop t b x cl k : V t -> under x -> forall i st, sim (t_loop n inj k i st t b x cl) (fun _ => True).
      Proof using Hgroup Hfair Htop0 Hinj.
        intros Hv Hx. induction k as [|k IH]; intros i st; [apply sim_out|]. cbn [t_loop]. eapply sim_bind; [apply sim_lift|]. intros c _. destruct (bool_decide (i < c)%Z); [|by apply sim_ret].
        eapply sim_bind; [by apply sim_names|]. intros o Ho. cbv zeta. eapply sim_bind; [apply sim_lift|]. intros e _. destruct e as [[d|]|]; [|apply sim_fail..].
        eapply sim_bind; [apply sim_lift|]. intros h1 _.
        apply (sim_inner (h1, st.2) d _ (fun st2 out sc3 => '(st4, outs) <~ t_loop n inj k (i + 1) (st2.1, sc3) t b x cl; TRet (st4, out :: outs))); [by apply among_or|].
        intros st2 out sc3. eapply sim_bind; [apply IH|]. intros [st4 outs] _. by apply sim_ret.
      Qed.
      Lemma sim_range st t s : V t -> sim (t_range n inj st t s) (fun _ => True).
      Proof using Hgroup Hfair Htop0 Hinj.
        intros Hv. unfold t_range. destruct (two_ids s) as [d b]. eapply sim_bind; [by apply sim_get|]. intros [x|] Hx; [|by apply sim_ret]. specialize (Hx x eq_refl).
        destruct (st.2) as [xs|]; [|by apply sim_ret]. eapply sim_bind; [apply sim_lift|]. intros cl _. eapply sim_bind; [apply sim_lift|]. intros c _.
        assert (Hnone : sim (tmp <~ t_names n t [dot b (B "none")]; t_run_on inj st (match tmp with Some x => x | None => x end)) (fun _ => True)).
        { eapply sim_bind; [by apply sim_names|]. intros o Ho. apply sim_run_on. by apply among_or. }
        destruct cl as [l|]; [|exact Hnone]. destruct (bool_decide (0 < c)%Z); [by apply sim_loop|exact Hnone].
      Qed.
      Lemma sim_condition st t s : V t -> sim (t_condition F ord n inj st t s) (fun _ => True).
      Proof using Hgroup Hfair Htop0 Hinj.
        intros Hv. unfold t_condition. destruct (two_ids s) as [d b]. eapply sim_bind; [by apply sim_get|]. intros p Hp. eapply sim_bind; [apply sim_lift|]. intros value _.
        eapply (sim_bind _ _ (fun a => among a.2)).
        - destruct p as [x|]; [|by apply sim_ret]. specialize (Hp x eq_refl). assert (Hsx : among (Some x)) by (by intros y [= <-]). destruct (is_nil value); [by apply sim_ret|]. destruct (as_dataset st.1 value) as [l|].
          + eapply sim_bind; [apply sim_lift|]. intros sc1 _. eapply sim_bind; [by apply sim_get|]. intros o Ho. cbv zeta. eapply sim_bind; [apply Hinj; by apply among_or|]. intros [st2 out] _.
            eapply sim_bind; [apply sim_lift|]. intros sc3 _. apply sim_ret. intros y [= <-]. by apply among_or.
          + eapply sim_bind; [apply sim_lift|]. intros sv _. destruct sv as [|c sv]; [by apply sim_ret|]. eapply sim_bind; [by apply sim_get|]. intros o Ho. cbv zeta.
            eapply sim_bind; [apply Hinj; by apply among_or|]. intros [st2 out] _. apply sim_ret. intros y [= <-]. by apply among_or.
        - intros [[st1 outs] s1] Hs1. cbn in Hs1. eapply sim_bind; [apply sim_lift|]. intros empty _. destruct empty; [|by apply sim_ret]. eapply sim_bind; [by apply sim_get|]. intros o Ho.
          eapply sim_bind; [apply sim_run_opt; by destruct o|]. intros [st2 outs2] _. by apply sim_ret.
      Qed.
      Lemma sim_param st t p : V t -> sim (t_param F ord n lg inj st t p) (fun _ => True).
      Proof using Hgroup Hfair Htop0 Hinj.
        intros Hv. unfold t_param. destruct (bool_decide (p_type p = MString)); [by apply sim_ret|]. destruct (bool_decide (p_type p = MComment)); [by apply sim_ret|]. destruct (bool_decide (p_type p = MLanguage)); [by apply sim_ret|].
        destruct (bool_decide (p_type p = MReference)); [by apply sim_reference|]. destruct (bool_decide (p_type p = MVariable)).
        { destruct (st.2); [|by apply sim_ret]. eapply sim_bind; [apply sim_lift|]. intros s _. by apply sim_ret. }
        destruct (bool_decide (p_type p = MRange)); [by apply sim_range|]. destruct (bool_decide (p_type p = MCondition)); [by apply sim_condition|]. destruct (bool_decide (p_type p = MDump)); [|by apply sim_ret].
        destruct (st.2) as [[|d xs]|]; [by apply sim_ret| |by apply sim_ret]. destruct (bool_decide _); [|by apply sim_ret]. eapply sim_bind; [apply sim_lift|]. intros s _. by apply sim_ret.
      Qed.
      Lemma sim_params t ps : V t -> forall st, sim (t_params F ord n lg inj st t ps) (fun _ => True).
      Proof using Hgroup Hfair Htop0 Hinj.
        intros Hv. induction ps as [|p ps IH]; intros st; [by apply sim_ret|]. cbn [t_params]. eapply sim_bind; [by apply sim_param|]. intros [st1 a] _. eapply sim_bind; [apply IH|]. intros [st2 b] _. by apply sim_ret.
      Qed.
    End Body.
    Lemma sim_injector lg n : forall st x, under x -> sim (t_injector F ord n lg st x) (fun _ => True).
    Proof using Hgroup Hfair Htop0.
      induction n as [|n IH]; intros st x Hx; [apply sim_out|]. cbn [t_injector]. destruct (at_V x) as [X HX]; [apply Hx|]. eapply sim_bind; [by eapply sim_root|]. intros [ps0|] _; [|by apply sim_ret].
      eapply sim_bind; [by eapply sim_root|]. intros [ps|] _; [|apply sim_fail]. eapply sim_bind; [apply sim_params; [exact IH|apply Hx]|]. intros [st1 outs] _. by apply sim_ret.
    Qed.
  End Reader.
  (** The version that an execution of [t] shows is the one that it finds when it follows Root. *)
  Definition shows {A} (p : tact A) (t : loc) (o : outcome A) : Prop := exists th', version th roles t th' /\ o = ('(u0, a) <-! talone p th'; Ok a).
  Lemma root_base t X data : Reload t data ∈ roles -> th !! t = Some X -> base t (Some (root_after data)) = (compile th t data).1.
  Proof using Hfair. intros Hr HX. destruct (Hfair _ Hr) as (Hv & _ & Hb). by rewrite boxless_compile by (done || by exists X). Qed.
  Lemma same_base t X : th !! t = Some X -> base t (t_root X) = th.
  Proof using.
    intros HX. unfold base. apply map_eq. intros x. destruct (decide (x = t)) as [->|Hne]; [|by rewrite lookup_alter_ne]. rewrite lookup_alter, HX. cbn. by destruct X.
  Qed.
  Lemma shows_injector t lg n st : V t -> forall u, hold (shows (t_injector F ord n lg st t) t Panic) (shows (t_injector F ord n lg st t) t NoFuel) (t_injector F ord n lg st t) u
    (fun a _ => shows (t_injector F ord n lg st t) t (Ok a)).
  Proof using Hgroup Hfair.
    intros Hv u. destruct (proj1 Hgroup t Hv) as [X HX]. destruct n as [|n]; [exists th; split; [by left|done]|]. cbn [t_injector]. apply holds_bind. apply holds_field; [apply keeps_refl|]. intros u1 _ H1.
    destruct (proj1 H1 t X Hv HX) as (X1 & HX1 & _ & _ & E1). rewrite HX1. destruct (t_root X1) as [ps0|] eqn:Er1.
    2:{ cbn [holds]. exists th. split; [by left|]. destruct E1 as [E1|(data & _ & E1)]; [|done]. rewrite talone_bind. cbn [talone field]. rewrite HX. cbn [talone obind]. by rewrite <- E1. }
    apply holds_bind. apply holds_field; [apply keeps_refl|]. intros u2 G2 H2. destruct (proj1 H2 t X Hv HX) as (X2 & HX2 & _ & _ & E2). rewrite HX2.
    assert (Hr2 : is_Some (t_root X2)) by (eapply (proj1 G2); [exact Hv|exact HX1|exact HX2|by rewrite Er1]). destruct (t_root X2) as [ps|] eqn:Er2; [|by destruct Hr2].
    assert (Hver : version th roles t (base t (Some ps)) /\ ((exists data, Reload t data ∈ roles) \/ base t (Some ps) = th)).
    { destruct E2 as [E2|(data & Hr & E2)]; [rewrite E2, (same_base t X HX); split; [by left|by right]|]. injection E2 as ->. split; [right; exists data; split; [done|]; by eapply root_base|]. left. by exists data. }
    destruct Hver as [Hver Htop]. assert (HXb : base t (Some ps) !! t = Some (with_root (Some ps) X)) by (unfold base; by rewrite lookup_alter, HX).
    assert (Hstart : forall o, o = ('(u0, a) <-! talone ('(st1, outs) <~ t_params F ord n lg (t_injector F ord n lg) st t ps; TRet (st1, concat outs)) (base t (Some ps)); Ok a) ->
      shows (r <~ field t t_root; match r with Some _ => r2 <~ field t t_root; match r2 with Some ps => '(st1, outs) <~ t_params F ord n lg (t_injector F ord n lg) st t ps; TRet (st1, concat outs) | None => TFail end
        | None => TRet (st, B "Error, no template.Root compiled") end) t o).
    { intros o Ho. exists (base t (Some ps)). split; [done|]. rewrite talone_bind. cbn [talone field]. rewrite HXb. cbn [talone obind with_root t_root]. rewrite talone_bind. cbn [talone field]. rewrite HXb. exact Ho. }
    pose proof (sim_bind t (Some ps) (t_params F ord n lg (t_injector F ord n lg) st t ps) (fun x => let '(st1, outs) := x in TRet (st1, concat outs)) (fun _ => True) (fun _ => True)) as Hb.
    assert (Hs : sim t (Some ps) ('(st1, outs) <~ t_params F ord n lg (t_injector F ord n lg) st t ps; TRet (st1, concat outs)) (fun _ => True)).
    { apply Hb; [|intros [st1 outs] _; by apply sim_ret]. apply sim_params; [done| |done]. intros st' x Hx. by apply sim_injector. }
    cbn. eapply holds_weaken; [apply keeps_refl|apply keeps_trans| | | |apply Hs].
    - intros E. apply Hstart. by rewrite E.
    - intros E. apply Hstart. by rewrite E.
    - intros a u' _ [E _]. apply Hstart. by rewrite E.
  Qed.
  Lemma reader_holds n h t data : V t -> forall u, hold (exists th', version th roles t th' /\ text_reply (execute F ord langs th' n h t data) = Panic)
    (exists th', version th roles t th' /\ text_reply (execute F ord langs th' n h t data) = NoFuel) ('(_, out) <~ t_execute F ord langs n h t data; TRet [Text out]) u
    (fun a _ => exists th', version th roles t th' /\ text_reply (execute F ord langs th' n h t data) = Ok a).
  Proof using Hgroup Hfair.
    intros Hv u.
    assert (Hx : forall o, shows (t_execute F ord langs n h t data) t o -> exists th', version th roles t th' /\ text_reply (execute F ord langs th' n h t data) = ('(u0, out) <-! o; Ok [Text out])).
    { intros o (th' & Hver & ->). exists th'. split; [done|]. rewrite alone_execute. by destruct (execute F ord langs th' n h t data) as [[h1 out]| |]. }
    assert (Hh : forall u, hold (shows (t_execute F ord langs n h t data) t Panic) (shows (t_execute F ord langs n h t data) t NoFuel) (t_execute F ord langs n h t data) u
      (fun a _ => shows (t_execute F ord langs n h t data) t (Ok a))).
    { assert (Hi : forall lg st u, hold (shows ('(st1, out) <~ t_injector F ord n lg st t; TRet (st1.1, out)) t Panic) (shows ('(st1, out) <~ t_injector F ord n lg st t; TRet (st1.1, out)) t NoFuel)
        ('(st1, out) <~ t_injector F ord n lg st t; TRet (st1.1, out)) u (fun a _ => shows ('(st1, out) <~ t_injector F ord n lg st t; TRet (st1.1, out)) t (Ok a))).
      { intros lg st u0. apply holds_bind. eapply holds_weaken; [apply keeps_refl|apply keeps_trans| | | |by apply shows_injector].
        - intros (th' & Hver & E). exists th'. split; [done|]. rewrite talone_bind. destruct (talone _ th') as [[a b]| |]; done.
        - intros (th' & Hver & E). exists th'. split; [done|]. rewrite talone_bind. destruct (talone _ th') as [[a b]| |]; done.
        - intros [st1 out] u' _ (th' & Hver & E). cbn. exists th'. split; [done|]. rewrite talone_bind. destruct (talone _ th') as [[a b]| |]; [|done..]. cbn in E |- *. by injection E as <-. }
      intros u0. unfold t_execute. destruct data as [d|]; [|apply Hi]. destruct (dget n h d (B "#")) as [r| |] eqn:Ed; cbn [tlift tbind]; [apply Hi| |]; exists th; (split; [by left|done]). }
    apply holds_bind. eapply holds_weaken; [apply keeps_refl|apply keeps_trans| | | |apply Hh].
    - intros Hs. by apply Hx in Hs.
    - intros Hs. by apply Hx in Hs.
    - intros [h1 out] u' _ Hs. cbn. apply Hx in Hs. exact Hs.
  Qed.
  Lemma steady0 : steady th.
  Proof using Hgroup.
    split; [intros x X Hv HX; exists X; by repeat (split; [done|]); left|]. intros x X Hv HX. destruct Hgroup as (_ & G2 & G3). split; [intros n y Hy Hvy; by apply Hv, (G2 x X n y HX Hy)|intros f Hf Hvf; by apply Hv, (G3 x X f HX Hf)].
  Qed.
  Lemma swap n th' ps i h t data o : rtc tstep (th, map (t_role F ord langs n) roles) (th', ps) -> roles !! i = Some (Reader h t data) -> (ps !! i) ≫= ended = Some o ->
    exists thv, version th roles t thv /\ o = text_reply (execute F ord langs thv n h t data).
  Proof using Hgroup Hfair.
    intros Hrun Hi Ho.
    set (E := fun (c : outcome (list reply)) (i : nat) => match roles !! i with Some (Reader h t data) => exists thv, version th roles t thv /\ text_reply (execute F ord langs thv n h t data) = c | _ => True end).
    destruct (all_steps steady keeps' keeps_refl keeps_trans (E Panic) (E NoFuel) (fun i a _ => E (Ok a) i) ltac:(done) th (map (t_role F ord langs n) roles) th' ps) as [_ Hend]; [|done|].
    - split; [apply steady0|]. intros j p Hj. rewrite list_lookup_fmap in Hj. destruct (roles !! j) as [rj|] eqn:Ej; [|done]. injection Hj as <-. unfold E. rewrite Ej.
      assert (Hin : rj ∈ roles) by (by eapply elem_of_list_lookup_2). pose proof (Hfair _ Hin) as Hf. destruct rj as [held hh cs|tt dd|hh tt dd]; cbn [t_role].
      + apply outer_calls; [apply Forall_forall; apply Hf|apply Hf].
      + by apply reload_holds.
      + by apply reader_holds.
    - destruct (ps !! i) as [p|] eqn:Ep; [|done]. specialize (Hend i p Ep). unfold E in Hend. rewrite Hi in Hend. cbn in Ho.
      destruct p as [a| | |w k]; cbn in Hend, Ho; [injection Ho as <-; destruct Hend as (thv & H1 & H2); by exists thv..|done].
  Qed.
End Swap.

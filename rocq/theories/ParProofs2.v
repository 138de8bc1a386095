(** * Executions at the same time: goroutines that do not notice each other (C112). *)
From Verif Require Import GoBase GoStrings DatasetModel LangModel TemplateModel ParModel.
Local Open Scope Z_scope.

(** [E]: heaps the goroutine cannot tell apart; [W]: what its writes do; [Inv]: holds throughout. *)
Section Fair.
  Context (Inv : heap -> Prop) (E W : heap -> heap -> Prop).
  Inductive fair {A} (P : A -> Prop) : act A -> Prop :=
  | f_ret a : P a -> fair P (Ret a)
  | f_fail : fair P Fail
  | f_out : fair P Out
  | f_act w k : (forall h, Inv h -> Inv (w h) /\ W h (w h)) -> (forall h h', Inv h -> Inv h' -> E h h' -> k h = k h' /\ E (w h) (w h')) ->
      (forall h, Inv h -> fair P (k h)) -> fair P (Act w k).
  Lemma fair_bind {A C} (P : A -> Prop) (Q : C -> Prop) m f : fair P m -> (forall a, P a -> fair Q (f a)) -> fair Q (abind m f).
  Proof.
    intros Hm Hf. induction Hm as [a Ha| | |w k H1 H2 H3 IH]; cbn [abind]; [by apply Hf|constructor|constructor|].
    constructor; [done| |done]. intros h h' I1 I2 HE. destruct (H2 h h' I1 I2 HE) as [-> ?]. done.
  Qed.
  Lemma fair_impl {A} (P Q : A -> Prop) m : fair P m -> (forall a, P a -> Q a) -> fair Q m.
  Proof. intros Hm Hpq. induction Hm as [a Ha| | |w k H1 H2 H3 IH]; [constructor; by apply Hpq|constructor..|]. by constructor. Qed.
  Lemma fair_lift {A} (P : A -> Prop) r : (forall a, r = Ok a -> P a) -> fair P (lift r).
  Proof. intros H. destruct r; constructor. by apply H. Qed.
  Context (Wrefl : forall h, Inv h -> W h h).
  Lemma fair_read {A} (P : A -> Prop) f : (forall h h', Inv h -> Inv h' -> E h h' -> f h = f h') -> (forall h a, Inv h -> f h = Ok a -> P a) -> fair P (read f).
  Proof.
    intros H1 H2. constructor.
    - intros h Hh. split; [done|by apply Wrefl].
    - intros h h' I1 I2 HE. split; [by rewrite (H1 h h')|done].
    - intros h Hh. apply fair_lift. intros a. by apply H2.
  Qed.
  Definition both (r r' : outcome heap) : Prop :=
    match r, r' with Ok h1, Ok h1' => E h1 h1' | Panic, Panic | NoFuel, NoFuel => True | _, _ => False end.
  Lemma fair_write f : (forall h h', Inv h -> Inv h' -> E h h' -> both (f h) (f h')) -> (forall h h1, Inv h -> f h = Ok h1 -> Inv h1 /\ W h h1) ->
    fair (fun _ => True) (write f).
  Proof.
    intros H1 H2. constructor.
    - intros h Hh. destruct (f h) eqn:Ef; [by apply H2|split; [done|by apply Wrefl]..].
    - intros h h' I1 I2 HE. specialize (H1 h h' I1 I2 HE). destruct (f h), (f h'); done.
    - intros h Hh. destruct (f h); by constructor.
  Qed.

  Section Exec.
    Context (F : golib) (ord : heap -> gmap bytes value -> list (bytes * value)) (langs : nat -> option lang) (th : theap).
    (** The objects and names the goroutine uses, and the values it finds under a name. *)
    Context (G EL : loc -> Prop) (N PR TE : bytes -> Prop) (DU RA : Prop) (Val : bytes -> value -> Prop).
    Definition vok (v : value) : Prop := forall l, v = VRef l -> G l.
    Context (Hget : forall n h h' d s, Inv h -> Inv h' -> E h h' -> G d -> N s -> dget n h d s = dget n h' d s).
    Context (Hval : forall n h d s v, Inv h -> G d -> N s -> dget n h d s = Ok (Some v) -> vok v /\ Val s v).
    Context (Hds : forall h h' v, Inv h -> Inv h' -> vok v -> as_dataset h v = as_dataset h' v).
    Context (Hcl : forall h h' v, Inv h -> Inv h' -> vok v -> as_collection h v = as_collection h' v).
    Context (Hcount : forall h h' c, Inv h -> Inv h' -> E h h' -> G c -> ccount h c = ccount h' c).
    Context (Hcget : forall h h' c i, Inv h -> Inv h' -> E h h' -> G c -> cget h c i = cget h' c i).
    Context (Helem : forall h c i d, Inv h -> G c -> cget h c i = Ok (Some (Some d)) -> G d /\ EL d).
    Context (Hset : forall n h h' d i, Inv h -> Inv h' -> E h h' -> G d -> EL d -> RA -> both (dset n h d (B ".counter") (VInt KInt i)) (dset n h' d (B ".counter") (VInt KInt i))).
    Context (HsetI : forall n h d i h1, Inv h -> G d -> EL d -> RA -> dset n h d (B ".counter") (VInt KInt i) = Ok h1 -> Inv h1 /\ W h h1).
    Context (Hprint : forall n h h' s v, Inv h -> Inv h' -> E h h' -> PR s -> Val s v -> vok v -> sprint F ord n h v = sprint F ord n h' v).
    Definition emptiness (r : outcome bytes) : outcome bool := s <-! r; Ok (match s with [] => true | _ => false end).
    Context (Htest : forall n h h' s v, Inv h -> Inv h' -> E h h' -> TE s -> Val s v -> vok v ->
      emptiness (sprint F ord n h v) = emptiness (sprint F ord n h' v) /\ (as_dataset h v = None -> sprint F ord n h v = sprint F ord n h' v)).
    Context (Hdump : forall n h h' d, Inv h -> Inv h' -> E h h' -> DU -> G d -> show F ord n h true d = show F ord n h' true d).
    Context (Hhash : N (B "#")).
    Definition pok (p : param) : Prop :=
      let v := TemplateModel.p_data p in
      (p_type p = MVariable -> N v /\ PR v) /\
      (p_type p = MReference -> match split_on ":"%char v with [_; f] => N f | [_; f; _] => N f /\ PR f | _ => True end) /\
      (p_type p = MRange -> N (two_ids v).1 /\ RA) /\
      (p_type p = MCondition -> N (two_ids v).1 /\ TE (two_ids v).1) /\
      (p_type p = MDump -> v = B "dump" \/ v = B "list" -> DU).
    Context (S : loc -> Prop) (Sroot : forall x T ps, S x -> th !! x = Some T -> t_root T = Some ps -> Forall pok ps)
      (Snext : forall n x name y, S x -> get_template n th x name = Ok (Some y) -> S y).
    Notation stack := (option (list loc)).
    Definition sok (sc : stack) : Prop := match sc with Some xs => Forall G xs | None => True end.
    Definition vsok (s : bytes) (r : option value) : Prop := match r with Some v => vok v /\ Val s v | None => True end.
    Lemma fair_search n back key : Forall G back -> N key -> fair (vsok key) (p_search n back key).
    Proof.
      intros Hb Hn. induction Hb as [|d back Hd _ IH]; cbn [p_search]; [by constructor|]. eapply (fair_bind (vsok key)).
      - apply fair_read; [intros; by apply Hget|]. intros h [v|] Hh Hr; [|done]. by eapply Hval.
      - intros [v|] Hv; [by constructor|done].
    Qed.
    Lemma fair_data n xs key : Forall G xs -> N key -> fair (vsok key) (p_data n xs key).
    Proof. intros H. apply fair_search. by apply Forall_reverse. Qed.
    Lemma fair_string n xs key : Forall G xs -> N key -> PR key -> fair (fun _ => True) (p_string F ord n xs key).
    Proof.
      intros H Hn Hp. unfold p_string. eapply fair_bind; [by apply fair_data|]. intros [v|] Hv; [|by constructor]. destruct Hv as [Hv1 Hv2].
      assert (fair (fun _ => True) (read (fun h => sprint F ord n h v))) by (apply fair_read; [intros; by eapply Hprint|done]).
      destruct v; try done. by constructor.
    Qed.
    Lemma fair_collection n xs key : Forall G xs -> N key -> fair (fun c => forall l, c = Some l -> G l) (p_collection n xs key).
    Proof.
      intros H Hn. unfold p_collection. eapply fair_bind; [by apply fair_data|]. intros r Hr. apply fair_read.
      - intros h h' I1 I2 HE. destruct r as [v|]; [|done]. cbn. destruct Hr as [Hr _]. by rewrite (Hcl h h').
      - intros h c Hh [= <-] l Hl. destruct r as [v|]; [|done]. cbn in Hl. destruct Hr as [Hr _]. destruct v; try done. cbn in Hl. apply Hr.
        destruct (h !! l0) as [[]|]; try done; by injection Hl as ->.
    Qed.

    Section Body.
      Context (n : nat) (lg : option lang) (pinj : stack -> loc -> act (stack * bytes)).
      Context (Hinj : forall sc t, sok sc -> S t -> fair (fun r => sok r.1) (pinj sc t)).
      Notation good := (fair (fun r : stack * list bytes => sok r.1)).
      Lemma fair_lookup t name : S t -> fair (fun r => forall x, r = Some x -> S x) (lift (lookup_template th n t name)).
      Proof. intros Ht. apply fair_lift. intros r Hr x ->. by eapply Snext. Qed.
      Lemma fair_try t names : S t -> fair (fun r => forall x, r = Some x -> S x) (lift (try_names th n t names)).
      Proof.
        intros Ht. apply fair_lift. induction names as [|a names IH]; cbn [try_names]; [by intros r [= <-]|]. intros r Hr x ->.
        destruct (lookup_template th n t a) as [[y|]| |] eqn:El; cbn [obind] in Hr; try done; [|by eapply IH]. injection Hr as ->. by eapply Snext.
      Qed.
      Lemma fair_push sc d : sok sc -> G d -> fair sok (lift (spush sc d)).
      Proof. intros Hs Hd. apply fair_lift. intros sc1. destruct sc as [xs|]; [|done]. intros [= <-]. cbn. apply Forall_app. split; [done|]. by constructor. Qed.
      Lemma fair_pop sc : sok sc -> fair sok (lift (spop sc)).
      Proof.
        intros Hs. apply fair_lift. intros sc1. destruct sc as [xs|]; [|done]. cbn. destruct (reverse xs) as [|y ys] eqn:Ex; [done|]. intros [= <-].
        cbn. apply Forall_reverse. cbn in Hs. apply Forall_reverse in Hs. rewrite Ex in Hs. by inversion Hs.
      Qed.
      Lemma fair_run sc t : sok sc -> S t -> good (p_run pinj sc t).
      Proof. intros Hs Ht. eapply fair_bind; [by apply Hinj|]. intros [sc1 out] H1. by constructor. Qed.
      Lemma fair_run_opt sc t : sok sc -> (forall x, t = Some x -> S x) -> good (p_run_opt pinj sc t).
      Proof. intros Hs Ht. destruct t as [x|]; [apply fair_run; [done|by apply Ht]|by constructor]. Qed.
      Lemma fair_inner sc d t {C} (Q : C -> Prop) (k : stack -> bytes -> act C) : sok sc -> G d -> S t -> (forall sc3 out, sok sc3 -> fair Q (k sc3 out)) ->
        fair Q (sc1 <~ lift (spush sc d); '(sc2, out) <~ pinj sc1 t; sc3 <~ lift (spop sc2); k sc3 out).
      Proof.
        intros Hs Hd Ht Hk. eapply fair_bind; [by apply fair_push|]. intros sc1 H1. eapply fair_bind; [by apply Hinj|]. intros [sc2 out] H2.
        eapply fair_bind; [by apply fair_pop|]. intros sc3 H3. by apply Hk.
      Qed.
      Lemma ds_G h v d : vok v -> as_dataset h v = Some d -> G d.
      Proof. intros Hv. destruct v; try done. cbn. destruct (h !! l) as [[]|]; try done; intros [= <-]; by apply Hv. Qed.
      Lemma fair_reference sc t xid : sok sc -> S t -> match xid with [_; f] => N f | [_; f; _] => N f /\ PR f | _ => True end ->
        good (p_reference F ord th n pinj sc t xid).
      Proof.
        intros Hs Ht Hx.
        assert (Hgen : forall template, good (r <~ lift (lookup_template th n t template); match r with None => Ret (sc, []) | Some subt => p_run pinj sc subt end)).
        { intros template. eapply fair_bind; [by apply fair_lookup|]. intros [x|] Hr; [|by constructor]. apply fair_run; [done|by apply Hr]. }
        unfold p_reference. destruct xid as [|a [|field [|prefix [|e xid]]]]; [apply Hgen|apply Hgen| | |apply Hgen].
        - eapply fair_bind; [by apply fair_lookup|]. intros [x|] Hr; [|by constructor]. eapply (fair_bind (vsok field)).
          { destruct sc as [xs|]; [by apply fair_data|constructor]. }
          intros v Hv. eapply (fair_bind (fun d => forall l, d = Some l -> G l)).
          { apply fair_read.
            - intros h h' I1 I2 HE. destruct v as [v|]; [|done]. cbn. destruct Hv as [Hv _]. by rewrite (Hds h h').
            - intros h d Hh [= <-] l Hl. destruct v as [v|]; [|done]. cbn in Hl. destruct Hv as [Hv _]. by eapply ds_G. }
          intros [d|] Hd; [|apply fair_run; [done|by apply Hr]]. apply (fair_inner sc d x _ (fun sc3 out => Ret (sc3, [out]))); [done|by apply Hd|by apply Hr|].
          intros. by constructor.
        - destruct Hx as [Hx Hp]. eapply (fair_bind (fun _ => True)).
          { destruct sc as [xs|]; [by apply fair_string|constructor]. }
          intros v _. eapply fair_bind; [by apply fair_try|]. intros r Hr. by apply fair_run_opt.
      Qed.
      Lemma or_S (tmp : option loc) s : S s -> (forall x, tmp = Some x -> S x) -> S (match tmp with Some x => x | None => s end).
      Proof. intros Hs Ht. destruct tmp; [by apply Ht|done]. Qed.
      Lemma fair_loop k : RA -> forall i sc t subid subt cl, sok sc -> S t -> S subt -> G cl -> good (p_loop th n pinj k i sc t subid subt cl).
      Proof.
        intros Hra. induction k as [|k IH]; intros i sc t subid subt cl Hs Ht Hst Hc; [constructor|]. cbn [p_loop]. eapply (fair_bind (fun _ => True)).
        { apply fair_read; [intros; by apply Hcount|done]. }
        intros c _. destruct (bool_decide (i < c)); [|by constructor]. eapply fair_bind; [by apply fair_try|]. intros r1 Hr1.
        eapply (fair_bind (fun r => forall x, r = Some x -> S x)).
        { destruct r1 as [x|]; [by constructor|]. eapply (fair_bind (fun _ => True)); [apply fair_read; [intros; by apply Hcount|done]|]. intros c2 _. by apply fair_try. }
        intros r Hr. cbv zeta.
        eapply (fair_bind (fun e => forall d, e = Some (Some d) -> G d /\ EL d)).
        { apply fair_read; [intros; by apply Hcget|]. intros h e Hh He d ->. by eapply Helem. }
        intros [[d|]|] Hd; [|constructor..]. destruct (Hd d eq_refl) as [Hd1 Hd2].
        eapply fair_bind; [apply fair_write; [intros; by apply Hset|intros; by eapply HsetI]|]. intros _ _.
        apply (fair_inner sc d _ _ (fun sc3 out => '(sc4, outs) <~ p_loop th n pinj k (i + 1) sc3 t subid subt cl; Ret (sc4, out :: outs))); [done..|by apply or_S|].
        intros sc3 out H3. eapply fair_bind; [by apply IH|]. intros [sc4 outs] H4. by constructor.
      Qed.
      Lemma fair_range sc t data : sok sc -> S t -> N (two_ids data).1 -> RA -> good (p_range th n pinj sc t data).
      Proof.
        intros Hs Ht Hn Hra. unfold p_range. destruct (two_ids data) as [subdata subid]. cbn [fst] in Hn. eapply fair_bind; [by apply fair_lookup|].
        intros [subt|] Hr; [|by constructor]. destruct sc as [xs|]; [|by constructor]. specialize (Hr subt eq_refl).
        eapply fair_bind; [by apply fair_collection|]. intros cl Hcl'.
        assert (Hnone : good (tmp <~ lift (try_names th n t [dot subid (B "none")]); p_run pinj (Some xs) (match tmp with Some x => x | None => subt end))).
        { eapply fair_bind; [by apply fair_try|]. intros tmp Htmp. apply fair_run; [done|by apply or_S]. }
        eapply (fair_bind (fun _ => True)).
        { destruct cl as [l|]; [|by constructor]. apply fair_read; [intros; apply Hcount; try done; by apply Hcl'|done]. }
        intros c _. destruct cl as [l|]; [|apply Hnone]. destruct (bool_decide (0 < c)); [|apply Hnone]. apply fair_loop; try done. by apply Hcl'.
      Qed.
      Lemma fair_condition sc t data : sok sc -> S t -> N (two_ids data).1 -> TE (two_ids data).1 -> good (p_condition F ord th n pinj sc t data).
      Proof.
        intros Hs Ht Hn Hte. unfold p_condition. destruct (two_ids data) as [subdata subid]. cbn [fst] in Hn, Hte. eapply fair_bind; [by apply fair_lookup|].
        intros subt Hsub. eapply (fair_bind (fun v => v = VNil \/ vok v /\ Val subdata v)).
        { destruct sc as [xs|]; [|constructor; by left]. eapply fair_bind; [by apply fair_data|]. intros [v|] Hv; constructor; [by right|by left]. }
        intros value Hv. eapply (fair_bind (fun r : stack * list bytes * option loc => sok r.1.1 /\ forall x, r.2 = Some x -> S x)).
        - destruct subt as [s|]; [|by constructor]. specialize (Hsub s eq_refl). destruct (is_nil value) eqn:Hnil.
          { constructor. split; [done|]. by intros x [= <-]. }
          destruct Hv as [->|[Hv1 Hv2]]; [done|]. eapply (fair_bind (fun d => (forall l, d = Some l -> G l) /\ (d = None -> forall h, Inv h -> as_dataset h value = None))).
          { apply fair_read; [intros; f_equal; by apply Hds|]. intros h d Hh [= <-]. split; [intros l Hl; by eapply ds_G|].
            intros Hd h' Hh'. rewrite <- Hd. by apply Hds. }
          intros [d|] [Hd Hdn].
          + eapply fair_bind; [apply fair_push; [done|by apply Hd]|]. intros sc1 H1. eapply fair_bind; [by apply fair_lookup|]. intros tmp Htmp. cbv zeta.
            pose proof (or_S tmp s Hsub Htmp) as Hs'. eapply fair_bind; [by apply Hinj|]. intros [sc2 out] H2. eapply fair_bind; [by apply fair_pop|].
            intros sc3 H3. constructor. split; [done|]. by intros x [= <-].
          + eapply (fair_bind (fun _ => True)).
            { apply fair_read; [|done]. intros h h' I1 I2 HE. apply (Htest n h h' subdata value); try done. by apply Hdn. }
            intros svalue _. destruct svalue as [|c svalue]; [constructor; split; [done|]; by intros x [= <-]|].
            eapply fair_bind; [by apply fair_lookup|]. intros tmp Htmp. cbv zeta.
            pose proof (or_S tmp s Hsub Htmp) as Hs'. eapply fair_bind; [by apply Hinj|]. intros [sc2 out] H2. constructor. split; [done|]. by intros x [= <-].
        - intros [[sc1 outs] subt1] [H1 H2]. cbn [fst snd] in H1, H2. eapply (fair_bind (fun _ => True)).
          { destruct (is_nil value) eqn:Hnil; [by constructor|]. destruct Hv as [->|[Hv1 Hv2]]; [done|].
            apply fair_read; [|done]. intros h h' I1 I2 HE. by apply (Htest n h h' subdata value). }
          intros [|] _; [|by constructor]. eapply fair_bind; [by apply fair_lookup|]. intros tmp Htmp. eapply fair_bind.
          { apply fair_run_opt; [done|]. intros x Hx. destruct tmp as [y|]; [injection Hx as ->; by apply Htmp|by apply H2]. }
          intros [sc2 outs2] H3. by constructor.
      Qed.
      Lemma fair_param sc t p : sok sc -> S t -> pok p -> good (p_param F ord th n lg pinj sc t p).
      Proof.
        intros Hs Ht (Pv & Pr & Pg & Pc & Pd). unfold p_param. cbv zeta. case_bool_decide; [by constructor|]. case_bool_decide; [by constructor|]. case_bool_decide; [by constructor|].
        case_bool_decide as Hr; [apply fair_reference; [done..|by apply Pr]|]. case_bool_decide as Hv.
        { destruct (Pv Hv) as [Hv1 Hv2]. destruct sc as [xs|]; [|by constructor]. eapply fair_bind; [by apply fair_string|]. intros d _. by constructor. }
        case_bool_decide as Hg; [destruct (Pg Hg); by apply fair_range|]. case_bool_decide as Hc; [apply fair_condition; [done..|by apply Pc|by apply Pc]|].
        case_bool_decide as Hd; [|by constructor]. destruct sc as [[|d xs]|]; [by constructor| |by constructor]. case_bool_decide as Hw; [|by constructor].
        eapply (fair_bind (fun _ => True)); [|intros s _; by constructor]. cbn in Hs. apply Forall_cons in Hs as [Hs _].
        apply fair_read; [|done]. intros. apply Hdump; try done. by apply Pd.
      Qed.
      Lemma fair_params ps : Forall pok ps -> forall sc t, sok sc -> S t -> good (p_params F ord th n lg pinj sc t ps).
      Proof.
        induction 1 as [|p ps Hp _ IH]; intros sc t Hs Ht; [by constructor|]. cbn [p_params]. eapply fair_bind; [by apply fair_param|]. intros [sc1 a] H1.
        eapply fair_bind; [by apply IH|]. intros [sc2 b] H2. by constructor.
      Qed.
    End Body.
    Lemma fair_injector n : forall lg sc t, sok sc -> S t -> fair (fun r => sok r.1) (p_injector F ord th n lg sc t).
    Proof.
      induction n as [|n IH]; intros lg sc t Hs Ht; [constructor|]. cbn [p_injector]. destruct (th !! t) as [T|] eqn:HT; [|constructor].
      destruct (t_root T) as [ps|] eqn:Hr; [|by constructor]. eapply fair_bind; [apply fair_params; try done; [intros; by apply IH|by eapply Sroot]|].
      intros [sc1 outs] H1. by constructor.
    Qed.
    Lemma fair_execute n t data : S t -> (forall d, data = Some d -> G d) -> fair (fun _ => True) (p_execute F ord langs th n t data).
    Proof.
      intros Ht Hd. unfold p_execute. destruct data as [d|].
      - specialize (Hd d eq_refl). eapply (fair_bind (fun _ => True)); [apply fair_read; [intros; by apply Hget|done]|]. intros r _. cbv zeta.
        eapply fair_bind; [apply fair_injector; [by constructor|done]|]. intros [sc1 out] _. by constructor.
      - eapply fair_bind; [apply fair_injector; done|]. intros [sc1 out] _. by constructor.
    Qed.
  End Exec.
End Fair.

Lemma fair_blind Inv (E W : heap -> heap -> Prop) {A} (P : A -> Prop) m : fair Inv E W P m -> fair Inv (fun _ _ => False) W P m.
Proof. induction 1 as [a Ha| | |w k H1 H2 H3 IH]; [by constructor|constructor..|]. by constructor. Qed.

(** ** Several goroutines; number [i] cannot tell what the others change *)
Section Par.
  Context {A : Type} (Inv : heap -> Prop) (W : nat -> heap -> heap -> Prop) (i : nat) (E : heap -> heap -> Prop).
  Context (Etrans : forall a b c, E a b -> E b c -> E a c).
  Context (Hother : forall j h h', j <> i -> Inv h -> Inv h' -> W j h h' -> E h h').
  Definition safe (ps : list (act A)) : Prop := forall j p, ps !! j = Some p -> fair Inv (fun _ _ => False) (W j) (fun _ => True) p.
  Lemma safe_step h ps s : Inv h -> safe ps -> par_step (h, ps) s -> Inv s.1 /\ safe s.2 /\ length s.2 = length ps /\
    exists j w k, ps !! j = Some (Act w k) /\ s = (w h, <[j := k h]> ps) /\ W j h (w h).
  Proof.
    intros Hi Hs H. remember (h, ps) as s0 eqn:E0. destruct H as [h1 ps1 j w k Hj]. injection E0 as -> ->. cbn [fst snd].
    pose proof (Hs j _ Hj) as Hf. inversion Hf as [| | |w' k' F1 F2 F3]; subst. destruct (F1 h Hi) as [Iw Ww]. split; [done|]. split; [|split; [by rewrite insert_length|by exists j, w, k]].
    intros j' p Hp. destruct (decide (j' = j)) as [->|Hne].
    - rewrite list_lookup_insert in Hp by (by eapply lookup_lt_Some). injection Hp as <-. by apply F3.
    - rewrite list_lookup_insert_ne in Hp by done. by apply Hs.
  Qed.
  Lemma unnoticed (h0 : heap) (ps0 : list (act A)) p0 s : Inv h0 -> E h0 h0 -> safe ps0 -> ps0 !! i = Some p0 ->
    fair Inv E (W i) (fun _ => True) p0 -> rtc par_step (h0, ps0) s ->
    Inv s.1 /\ safe s.2 /\ exists p hi, s.2 !! i = Some p /\ fair Inv E (W i) (fun _ => True) p /\ Inv hi /\ E hi s.1 /\ alone p hi = alone p0 h0.
  Proof.
    intros I0 E0 S0 Hp0 F0 H. revert s H. apply rtc_ind_r.
    - split; [done|]. split; [done|]. by exists p0, h0.
    - intros y z _ Hyz (Iy & Sy & p & hi & Hp & Fp & Ihi & Ehi & Al). destruct y as [h ps]. cbn [fst snd] in *.
      destruct (safe_step h ps z Iy Sy Hyz) as (Iz & Sz & _ & j & w & k & Hj & -> & Ww). cbn [fst snd] in *. split; [done|]. split; [done|].
      destruct (decide (j = i)) as [->|Hne].
      + assert (p = Act w k) as -> by congruence. inversion Fp as [| | |w' k' F1 F2 F3]; subst. destruct (F2 hi h Ihi Iy Ehi) as [Ek Ew].
        exists (k h), (w hi). split; [apply list_lookup_insert; by eapply lookup_lt_Some|]. split; [by apply F3|]. split; [by apply F1|]. split; [done|].
        rewrite <- Al, <- Ek. done.
      + exists p, hi. split; [by rewrite list_lookup_insert_ne|]. split; [done|]. split; [done|]. split; [|done]. eapply Etrans; [done|]. by eapply Hother.
  Qed.
  Lemma still_safe (h0 : heap) (ps0 : list (act A)) s : Inv h0 -> safe ps0 -> rtc par_step (h0, ps0) s -> Inv s.1 /\ safe s.2.
  Proof.
    intros I0 S0 H. revert s H. apply rtc_ind_r; [done|]. intros [h ps] z _ Hyz [Iy Sy]. destruct (safe_step h ps z Iy Sy Hyz) as (? & ? & _). done.
  Qed.
End Par.
(** Every goroutine that is not at its end can go on, and they come to an end. *)
Lemma par_progress {A} (h : heap) (ps : list (act A)) i w k : ps !! i = Some (Act w k) -> exists s, par_step (h, ps) s.
Proof. intros H. eexists. by econstructor. Qed.
Definition fewer {A} (qs ps : list (act A)) : Prop := exists i w k h, ps !! i = Some (Act w k) /\ qs = <[i := k h]> ps.
Lemma fewer_same {A} (p : act A) : (forall w k, p <> Act w k) -> forall ps, Acc fewer ps -> Acc fewer (p :: ps).
Proof.
  intros Hp ps H. induction H as [ps _ IHs]. constructor. intros qs (i & w & k & h & Hi & ->). destruct i as [|i].
  - cbn in Hi. injection Hi as ->. by destruct (Hp w k).
  - cbn in Hi. cbn. apply IHs. by exists i, w, k, h.
Qed.
Lemma fewer_cons {A} (p : act A) : forall ps, Acc fewer ps -> Acc fewer (p :: ps).
Proof.
  induction p as [a| | |w k IHk]; [by apply fewer_same..|]. intros ps H. induction H as [ps Hacc IHs]. constructor. intros qs (i & w' & k' & h & Hi & ->).
  destruct i as [|i].
  - cbn in Hi. injection Hi as <- <-. cbn. apply IHk. by constructor.
  - cbn in Hi. cbn. apply IHs. by exists i, w', k', h.
Qed.
Lemma fewer_acc {A} (ps : list (act A)) : Acc fewer ps.
Proof.
  induction ps as [|p ps IH]; [|by apply fewer_cons]. constructor. intros qs (i & w & k & h & Hi & _). by rewrite lookup_nil in Hi.
Qed.
Lemma par_ends {A} (ps : list (act A)) : forall h, Acc (flip par_step) (h, ps).
Proof.
  induction (fewer_acc ps) as [ps _ IH]. intros h. constructor. intros s Hs. unfold flip in Hs. remember (h, ps) as s0 eqn:E0.
  destruct Hs as [h1 ps1 i w k Hi]. injection E0 as -> ->. apply IH. by exists i, w, k, h.
Qed.

(** * Executions: equivalence with the relation, effects, executions without loops or data. *)
From Verif Require Import GoBase GoStrings GoStringsProofs Regex DatasetModel LangModel DatasetSpec DatasetProofs DatasetProofs2 DatasetProofs3
  DatasetProofs5 TemplateModel TemplateSpec TemplateProofs2 TemplateProofs3 TemplateProofs4 TemplateProofs5 TemplateProofs6
  RenderSpec RenderProofs RenderProofs2 RenderProofs3.
Local Open Scope Z_scope.

Lemma answers_unique h d key r1 r2 : answers h d key r1 -> answers h d key r2 -> r1 = r2.
Proof.
  intros [n1 H1]%answers_gets [n2 H2]%answers_gets.
  pose proof (dget_mono n1 (n1 `max` n2) _ _ _ _ (Nat.le_max_l _ _) H1) as E1.
  pose proof (dget_mono n2 (n1 `max` n2) _ _ _ _ (Nat.le_max_r _ _) H2) as E2. rewrite E1 in E2 by done. by injection (E2 ltac:(done)).
Qed.
Lemma found_unique h sc key r1 r2 : found h sc key r1 -> found h sc key r2 -> r1 = r2.
Proof.
  intros [n1 H1]%found_search [n2 H2]%found_search.
  apply (search_up n1 (n1 `max` n2)) in H1; [|lia]. apply (search_up n2 (n1 `max` n2)) in H2; [|lia]. congruence.
Qed.
Lemma language_unique langs h d g1 g2 : language_of langs h d g1 -> language_of langs h d g2 -> g1 = g2.
Proof.
  intros (r1 & A1 & H1) (r2 & A2 & H2). rewrite (answers_unique _ _ _ _ _ A2 A1) in H2.
  destruct H1 as [(k & -> & ->)|[Hn ->]], H2 as [(k' & E & ->)|[Hn' ->]]; try done.
  - by injection E as <-.
  - by destruct (Hn' k).
  - by destruct (Hn k').
Qed.
Lemma scope_restored F ord th n lg h xs t st' out : compiled th -> xs <> [] -> injector F ord th n lg (h, Some xs) t = Ok (st', out) -> st'.2 = Some xs.
Proof. intros Hc Hx H. by destruct (injector_sound F ord th lg n h xs t st' out Hc Hx H) as (h' & -> & _). Qed.
Lemma renders_ends F ord th lg h sc t h' out : renders F ord th lg h sc t h' out ->
  exists n0, forall n, (n0 <= n)%nat -> injector F ord th n lg (h, Some (reverse sc)) t = Ok ((h', Some (reverse sc)), out).
Proof. apply renders_complete. Qed.
Lemma renders_unique F ord th lg h sc t h1 o1 h2 o2 : renders F ord th lg h sc t h1 o1 -> renders F ord th lg h sc t h2 o2 -> h1 = h2 /\ o1 = o2.
Proof.
  intros [n1 H1]%renders_ends [n2 H2]%renders_ends. specialize (H1 (n1 `max` n2)%nat ltac:(lia)). specialize (H2 (n1 `max` n2)%nat ltac:(lia)).
  rewrite H1 in H2. by injection H2.
Qed.
Lemma execute_meaning F ord langs th h t d h' out : compiled th ->
  (exists n, execute F ord langs th n h t (Some d) = Ok (h', out)) <-> executes F ord langs th h t d h' out.
Proof.
  intros Hc. split.
  - intros [n H]. unfold execute in H. apply obind_ok in H as (r & Hr & H).
    apply obind_ok in H as ([st o] & H & [= <- <-]).
    apply injector_sound in H as (h1 & -> & H); [|done|done]. cbn [fst].
    exists (match r with Some (VOther k) => langs k | _ => None end). split; [|exact H].
    exists r. split; [apply answers_gets; by exists n|].
    assert (D : (exists k, r = Some (VOther k)) \/ forall k, r <> Some (VOther k)).
    { destruct r as [v|]; [|by right]. destruct v; try (by right). left. eauto. }
    destruct D as [[k ->]|D]; [left; eauto|]. right. split; [done|]. destruct r as [v|]; [|done]. destruct v; try done. exfalso; by eapply D.
  - intros (lg & (r & [n1 Hr]%answers_gets & Hl) & [n2 H]%renders_ends). exists (n1 `max` n2)%nat. unfold execute.
    rewrite (dget_mono n1 (n1 `max` n2) h d _ _ ltac:(lia) Hr) by done. cbn [obind].
    assert (E : match r with Some (VOther k) => langs k | _ => None end = lg).
    { destruct Hl as [(k & -> & ->)|[Hn ->]]; [done|]. destruct r as [v|]; [|done]. destruct v; try done. exfalso; by eapply Hn. }
    rewrite E. change (Some [d]) with (Some (reverse [d])). by rewrite H by lia.
Qed.
Lemma executes_unique F ord langs th h t d h1 o1 h2 o2 :
  executes F ord langs th h t d h1 o1 -> executes F ord langs th h t d h2 o2 -> h1 = h2 /\ o1 = o2.
Proof. intros (g1 & L1 & R1) (g2 & L2 & R2). rewrite (language_unique _ _ _ _ _ L2 L1) in R2. by eapply renders_unique. Qed.

(** ** Effects *)
Lemma execute_counted F ord langs th n h t d h' out : compiled th -> execute F ord langs th n h t (Some d) = Ok (h', out) -> counted h h'.
Proof.
  intros Hc H. assert (E : executes F ord langs th h t d h' out) by (apply execute_meaning; [done|by exists n]).
  destruct E as (lg & _ & Hr). exact (proj1 (renders_counted _ _ _ _) _ _ _ _ _ Hr).
Qed.
Lemma choose_visible th t ns x : choose th t ns (Some x) -> exists n, n ∈ ns /\ visible th t n (Some x).
Proof.
  intros H. remember (Some x) as r eqn:E. induction H as [|n ns y H|n ns r H H1 IH]; [done| |].
  - injection E as ->. exists n. split; [apply elem_of_list_here|done].
  - destruct (IH E) as (m & Hm & Hv). exists m. split; [by apply elem_of_list_further|done].
Qed.
Lemma renders_loop_free F ord th lg (S : loc -> Prop) : (forall x n y, S x -> visible th x n (Some y) -> S y) ->
  (forall x T l s, S x -> th !! x = Some T -> t_root T = Some (map stored l) -> TRange s ∉ l) ->
  (forall h sc t h' out, renders F ord th lg h sc t h' out -> S t -> h' = h) /\
  (forall h sc t l h' out, renders_all F ord th lg h sc t l h' out -> S t -> (forall s, TRange s ∉ l) -> h' = h) /\
  (forall h sc t h' out, renders_opt F ord th lg h sc t h' out -> (forall x, t = Some x -> S x) -> h' = h) /\
  (forall h sc t k h' out, renders_one F ord th lg h sc t k h' out -> S t -> (forall s, k <> TRange s) -> h' = h) /\
  (forall h sc t b x i n ds h' out, loops F ord th lg h sc t b x i n ds h' out -> True).
Proof.
  intros HS Hno.
  assert (Hor : forall t q x n m, S t -> visible th t n (Some x) -> visible th t m q -> S (or_else q x)).
  { intros t q x n m Ht Hx Hq. destruct q as [y|]; [by eapply (HS t m)|by eapply (HS t n)]. }
  apply renders_mutind; try done.
  - intros h sc t T l h' out HT Hr _ IH Ht. apply IH; [done|]. intros s. by eapply Hno.
  - intros h sc t k l h1 h2 a b _ IH1 _ IH2 Ht Hl. rewrite IH2, IH1; try done.
    + intros s ->. apply (Hl s), elem_of_list_here.
    + intros s Hs. apply (Hl s). by apply elem_of_list_further.
  - intros h sc t h' out _ IH Ht. apply IH, Ht. done.
  - intros h sc t s a f p v r h' out _ _ Hc _ IH Ht _. apply IH. intros x ->. apply choose_visible in Hc as (n & _ & Hv). by eapply HS.
  - intros h sc t s a f x d h' out _ Hv _ _ _ IH Ht _. apply IH. by eapply HS.
  - intros h sc t s a f x r h' out _ Hv _ _ _ IH Ht _. apply IH. by eapply HS.
  - intros h sc t s a ws x h' out _ _ _ Hv _ IH Ht _. apply IH. by eapply HS.
  - intros h sc t s d b x c xs h' out _ _ _ _ _ _ _ Ht Hk. by destruct (Hk s).
  - intros h sc t s d b x r q h' out _ _ _ _ _ _ _ Ht Hk. by destruct (Hk s).
  - intros h sc t s d b x v q h' out u _ Hv _ _ Hq _ IH _ Ht _. apply IH. by eapply Hor.
  - intros h sc t s d b x v w q h' out u _ Hv _ _ _ _ _ Hq _ IH _ Ht _. apply IH. by eapply Hor.
  - intros h sc t s d b r p q h' out _ Hv _ _ Hq _ IH Ht _. apply IH. intros x E. destruct q as [y|]; [injection E as ->; by eapply HS|].
    subst p. by eapply HS.
Qed.
Lemma execute_loop_free F ord langs th n h t d h' out : compiled th -> loop_free th t ->
  execute F ord langs th n h t (Some d) = Ok (h', out) -> h' = h.
Proof.
  intros Hc (S & Ht & HS & Hno) H. assert (E : executes F ord langs th h t d h' out) by (apply execute_meaning; [done|by exists n]).
  destruct E as (lg & _ & Hr). exact (proj1 (renders_loop_free F ord th lg S HS Hno) _ _ _ _ _ Hr Ht).
Qed.
Lemma execute_again F ord langs th n h t d h' out : compiled th -> loop_free th t ->
  execute F ord langs th n h t (Some d) = Ok (h', out) -> execute F ord langs th n h' t (Some d) = Ok (h', out).
Proof. intros Hc Hl H. pose proof (execute_loop_free _ _ _ _ _ _ _ _ _ _ Hc Hl H) as ->. done. Qed.

(** ** Missing values *)
Lemma data_template_unique s d b d' b' : data_template s d b -> data_template s d' b' -> d = d' /\ b = b'.
Proof. intros H%two_ids_spec H'%two_ids_spec. rewrite H in H'. by injection H'. Qed.
Lemma condition_without_value F ord th lg h sc t s d b x r h' out : data_template s d b -> visible th t b (Some x) ->
  visible th t (dotted b (B "none")) None -> found h sc d r -> blank F ord h r ->
  renders_one F ord th lg h sc t (TCond s) h' out <-> renders F ord th lg h sc x h' out.
Proof.
  intros Hs Hx Hn Hf Hb. split.
  2:{ intros H. eapply ro_cond_blank; try done. by constructor. }
  assert (Hpr : forall v w, Some v = r -> v <> VNil -> prints F ord h v w -> w = []).
  { intros v w <- Hv [m Hw]. inversion Hb as [| |v' _ [m' Hp]]; simplify_eq.
    apply (sprint_mono F ord m (m `max` m')) in Hw; [|lia|done]. apply (sprint_mono F ord m' (m `max` m')) in Hp; [|lia|done]. congruence. }
  intros H. inversion H; clear H; subst;
    repeat match goal with
    | A : data_template ?s _ _, C : data_template ?s _ _ |- _ => destruct (data_template_unique _ _ _ _ _ A C); clear A; subst
    | A : found ?h ?sc ?d _, C : found ?h ?sc ?d _ |- _ => pose proof (found_unique _ _ _ _ _ A C); clear A; subst
    | A : visible ?th ?t ?n _, C : visible ?th ?t ?n _ |- _ => pose proof (visible_unique _ _ _ _ _ A C); clear A; simplify_eq end.
  - inversion Hb as [| |v' _ [m' Hp]]; subst. by destruct (object_text F ord _ _ _ _ Hp).
  - match goal with Hw : prints F ord h _ ?w, Hne : ?w <> [] |- _ => by destruct Hne; apply (Hpr _ w eq_refl ltac:(done) Hw) end.
  - match goal with Ho : renders_opt _ _ _ _ _ _ _ _ _ |- _ => by inversion Ho end.
Qed.
Lemma loop_without_elements F ord th lg h sc t s d b x r h' out : data_template s d b -> visible th t b (Some x) ->
  visible th t (dotted b (B "none")) None -> found h sc d r -> (forall c xs, r = Some (VRef c) -> collection_at h c xs -> xs = []) ->
  renders_one F ord th lg h sc t (TRange s) h' out <-> renders F ord th lg h sc x h' out.
Proof.
  intros Hs Hx Hn Hf Hb. split.
  2:{ intros H. by eapply (ro_range_none F ord th lg h sc t s d b x r None). }
  intros H. inversion H; clear H; subst;
    repeat match goal with
    | A : data_template ?s _ _, C : data_template ?s _ _ |- _ => destruct (data_template_unique _ _ _ _ _ A C); clear A; subst
    | A : found ?h ?sc ?d _, C : found ?h ?sc ?d _ |- _ => pose proof (found_unique _ _ _ _ _ A C); clear A; subst
    | A : visible ?th ?t ?n _, C : visible ?th ?t ?n _ |- _ => pose proof (visible_unique _ _ _ _ _ A C); clear A; simplify_eq end.
  - match goal with Hc : collection_at h ?c ?xs |- _ => by pose proof (Hb c xs eq_refl Hc) end.
  - done.
Qed.

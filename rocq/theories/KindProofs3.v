(** * Executions on plain and thread safe data (C129). *)
From Verif Require Import GoBase GoStrings GoStringsProofs DatasetModel LangModel DatasetSpec DatasetProofs DatasetProofs2 DatasetProofs3 DatasetProofs4
  TemplateModel TemplateSpec RenderSpec RenderProofs5 HoleSpec HoleProofs SameSpec SameProofs KindSpec KindProofs KindProofs2.
Local Open Scope nat_scope.

(** What rendering keeps of the data [h0]: keys stand for the same objects, collections are the same. *)
Definition kept (h0 h : heap) : Prop :=
  (forall k l, binds h k (VRef l) -> binds h0 k (VRef l)) /\ (forall c xs, collection_at h c xs -> collection_at h0 c xs).
Lemma kept_values h0 h key : kept h0 h -> to_values h0 key -> to_values h key.
Proof. intros [H1 _] H k Ht. destruct (H k Ht) as [Hd Hb]. split; [done|]. intros l Hl. by apply (Hb l), H1. Qed.
Lemma kept_tables h0 h key : kept h0 h -> to_tables h0 key -> to_tables h key.
Proof. intros [H1 H2] H k Ht. destruct (H k Ht) as [Hd Hb]. split; [done|]. intros c xs Hl Hc. apply (Hb c xs); auto. Qed.
Lemma kept_store h0 h x m z : kept h0 h -> h !! x = Some (ODs m) -> kept h0 (<[x := ODs (<[B ".counter" := VInt KInt z]> m)]> h).
Proof.
  intros [H1 H2] Hx. split.
  - intros k l (y & my & Hy & Hk). apply H1. destruct (decide (y = x)) as [->|Hne].
    + rewrite lookup_insert in Hy. injection Hy as <-. destruct (decide (k = B ".counter")) as [->|Hk']; [by rewrite lookup_insert in Hk|].
      rewrite lookup_insert_ne in Hk by done. by exists x, m.
    + rewrite lookup_insert_ne in Hy by done. by exists y, my.
  - intros c xs Hc. apply H2. destruct (decide (c = x)) as [->|Hne]; [destruct Hc as [Hc|Hc]; by rewrite lookup_insert in Hc|].
    destruct Hc as [Hc|Hc]; rewrite lookup_insert_ne in Hc by done; [by left|by right].
Qed.
Lemma inside_store (h : heap) x m m2 l y my : h !! x = Some (ODs m) -> inside h l y my ->
  inside (<[x := ODs m2]> h) l y (if decide (y = x) then m2 else my).
Proof.
  intros Hx. induction 1 as [l my E|l d y my E _ IH].
  - apply in_ds. destruct (decide (l = x)) as [->|Hne]; [by rewrite lookup_insert|by rewrite lookup_insert_ne].
  - eapply in_ts; [|exact IH]. rewrite lookup_insert_ne; [done|]. intros ->. congruence.
Qed.
Lemma coll_store (h : heap) x m m2 c xs : h !! x = Some (ODs m) -> collection_at h c xs -> collection_at (<[x := ODs m2]> h) c xs.
Proof. intros Hx [H|H]; [left|right]; (rewrite lookup_insert_ne; [done|]; intros ->; congruence). Qed.
Lemma ods_store (h : heap) (x : loc) m m2 (a : loc) : h !! x = Some (ODs m) -> (exists m', (<[x := ODs m2]> h) !! a = Some (ODs m')) -> exists m', h !! a = Some (ODs m').
Proof. intros Hx [m' H]. destruct (decide (a = x)) as [->|Hne]; [eauto|]. rewrite lookup_insert_ne in H by done. eauto. Qed.
Lemma alike_stores R b h h' x x' m m' n n' : alike R b h h' -> one_to_one R h h' -> R x x' -> h !! x = Some (ODs m) -> h' !! x' = Some (ODs m') ->
  (forall k, option_Forall2 (same_value R) (n !! k) (n' !! k)) -> alike R b (<[x := ODs n]> h) (<[x' := ODs n']> h').
Proof.
  intros Ha H1 HR Hx Hx' Hn l l' Hl. destruct (Ha _ _ Hl) as [y my y' my' Hi Hi' Hy Hm|xs xs' Hc Hc' HF Hk|E E'].
  - eapply sc_dataset; [by eapply inside_store|by eapply inside_store|done|].
    assert (Hiff : y = x <-> y' = x') by (apply inside_at in Hi, Hi'; apply (H1 y y' x x'); eauto).
    intros k. destruct (decide (y = x)) as [Ey|Ey], (decide (y' = x')) as [Ey'|Ey']; [apply Hn|naive_solver|naive_solver|apply Hm].
  - eapply sc_collection; [by eapply coll_store|by eapply coll_store|done|]. intros Hb. specialize (Hk Hb).
    assert (l <> x) by (intros ->; destruct Hc; congruence). assert (l' <> x') by (intros ->; destruct Hc'; congruence). by rewrite !lookup_insert_ne.
  - apply sc_nothing; (rewrite lookup_insert_ne; [done|]; intros ->; congruence).
Qed.
Lemma one_stores R h h' x x' m m' n n' : one_to_one R h h' -> h !! x = Some (ODs m) -> h' !! x' = Some (ODs m') ->
  one_to_one R (<[x := ODs n]> h) (<[x' := ODs n']> h').
Proof. intros H1 Hx Hx' a c a' c' Hac Hac' A1 A2 A3 A4. apply H1; try done; by eapply ods_store. Qed.

Section Execute.
  Context (R : loc -> loc -> Prop) (b : bool) (h0 : heap) (F : golib) (ord ord' : heap -> gmap bytes value -> list (bytes * value)).
  Context (Ho : order_ok ord) (Ho' : order_ok ord') (th : theap) (lg : option lang).
  Context (S : loc -> Prop) (HS : forall x n y, S x -> visible th x n (Some y) -> S y).
  Context (Hno : forall x T l, S x -> th !! x = Some T -> t_root T = Some (map stored l) -> Forall (modest h0) l).
  Definition good (h h' : heap) : Prop := alike R b h h' /\ one_to_one R h h' /\ kept h0 h.
  Notation ok P := (b = true \/ P).
  Lemma choose_in t ns x : S t -> choose th t ns (Some x) -> S x.
  Proof. intros Ht H. remember (Some x) as r eqn:E. induction H; simplify_eq; eauto. Qed.
  Lemma or_else_in t n q x : S t -> S x -> visible th t n q -> S (or_else q x).
  Proof. intros Ht Hx Hq. destruct q; simpl; [exact (HS t n _ Ht Hq)|done]. Qed.
  Lemma kd_renders :
    (forall h sc t h1 out, renders F ord th lg h sc t h1 out -> forall h' sc', good h h' -> Forall2 R sc sc' -> ok (S t) ->
       exists h1', renders F ord' th lg h' sc' t h1' out /\ good h1 h1') /\
    (forall h sc t l h1 out, renders_all F ord th lg h sc t l h1 out -> forall h' sc', good h h' -> Forall2 R sc sc' ->
       ok (S t /\ Forall (modest h0) l) -> exists h1', renders_all F ord' th lg h' sc' t l h1' out /\ good h1 h1') /\
    (forall h sc o h1 out, renders_opt F ord th lg h sc o h1 out -> forall h' sc', good h h' -> Forall2 R sc sc' ->
       ok (forall t, o = Some t -> S t) -> exists h1', renders_opt F ord' th lg h' sc' o h1' out /\ good h1 h1') /\
    (forall h sc t k h1 out, renders_one F ord th lg h sc t k h1 out -> forall h' sc', good h h' -> Forall2 R sc sc' ->
       ok (S t /\ modest h0 k) -> exists h1', renders_one F ord' th lg h' sc' t k h1' out /\ good h1 h1') /\
    (forall h sc t q x i n ds h1 out, loops F ord th lg h sc t q x i n ds h1 out -> forall h' sc' ds', good h h' -> Forall2 R sc sc' -> ok (S t /\ S x) ->
       Forall2 (option_Forall2 R) ds ds' -> exists h1', loops F ord' th lg h' sc' t q x i n ds' h1' out /\ good h1 h1').
  Proof using Ho Ho' HS Hno.
    apply renders_mutind.
    - intros h sc t T l h1 out HT Hr _ IH h' sc' Hg HF Hb. destruct (IH h' sc' Hg HF) as (h1' & ? & ?).
      { destruct Hb as [Hb|Hs]; [by left|right]. split; [done|]. by eapply Hno. }
      exists h1'. split; [by eapply rd_root|done].
    - intros h sc t T HT Hr h' sc' Hg HF _. exists h'. split; [by eapply rd_not_compiled|done].
    - intros h sc t h' sc' Hg HF _. exists h'. split; [constructor|done].
    - intros h sc t k l h1 h2 o1 o2 _ IH1 _ IH2 h' sc' Hg HF Hb. destruct (IH1 h' sc' Hg HF) as (h1' & ? & Hg1).
      { destruct Hb as [Hb|[Hs Hn]]; [by left|right]. split; [done|]. by inversion Hn. }
      destruct (IH2 h1' sc' Hg1 HF) as (h2' & ? & ?).
      { destruct Hb as [Hb|[Hs Hn]]; [by left|right]. split; [done|]. by inversion Hn. }
      exists h2'. split; [by eapply ra_cons|done].
    - intros h sc h' sc' Hg HF _. exists h'. split; [constructor|done].
    - intros h sc t h1 out _ IH h' sc' Hg HF Hb. destruct (IH h' sc' Hg HF) as (h1' & ? & ?).
      { destruct Hb as [Hb|Hs]; [by left|right]. by apply Hs. }
      exists h1'. split; [by constructor|done].
    - intros h sc t s h' sc' Hg HF _. exists h'. split; [constructor|done].
    - intros h sc t s h' sc' Hg HF _. exists h'. split; [constructor|done].
    - intros h sc t s g v Hl Hv h' sc' Hg HF _. exists h'. split; [by eapply ro_lang|done].
    - intros h sc t s Hl h' sc' Hg HF _. exists h'. split; [by eapply ro_lang_missing|done].
    - intros h sc t s out Hf h' sc' Hg HF Hb. exists h'. split; [|done]. apply ro_var. destruct Hg as (Ha & _ & Hk). eapply (kd_field R b h h' Ha F ord ord' Ho Ho'); [|done|done].
      destruct Hb as [Hb|[_ Hb]]; [by left|right]. inversion Hb; subst. by eapply kept_values.
    - intros h sc d t s out Hs Hd h' sc' Hg HF Hb. apply Forall2_app_inv_l in HF as (sc1 & e & HF & He & ->).
      inversion He as [|? d' ? ? Hdd Hnil]; subst. inversion Hnil; subst. destruct Hg as (Ha & Hg).
      exists h'. split; [|done]. apply ro_dump; [done|]. eapply (kd_dumps R b h h' Ha F ord ord' Ho Ho'); [|done|done].
      destruct Hb as [Hb|[_ Hb]]; [done|]. inversion Hb; subst. by destruct Hs.
    - intros h sc t s H1 H2 h' sc' Hg HF _. exists h'. split; [by apply ro_dump_other|done].
    - intros h sc t s a field prefix v r h1 out Hs Hf Hc _ IH h' sc' Hg HF Hb. destruct (IH h' sc' Hg HF) as (h1' & ? & ?).
      { destruct Hb as [Hb|[Ht _]]; [by left|right]. intros x ->. by eapply choose_in. }
      exists h1'. split; [|done]. eapply ro_ref_select; [done| |done|done]. destruct Hg as (Ha & _ & Hk). eapply (kd_field R b h h' Ha F ord ord' Ho Ho'); [|done|done].
      destruct Hb as [Hb|[_ Hb]]; [by left|right]. inversion Hb; subst. eapply kept_values; [done|]. eauto.
    - intros h sc t s a field x d h1 out Hs Hv Hf Hd _ IH h' sc' Hg HF Hb. pose proof Hg as (Ha & _).
      destruct (kd_found _ _ _ _ Ha _ _ _ Hf _ HF) as (r' & Hf' & Hr). inversion Hr as [? v' Hvv|]; subst.
      apply sv_ref in Hvv as (d' & -> & HR). destruct (IH h' (d' :: sc') Hg) as (h1' & ? & ?).
      { by constructor. } { destruct Hb as [Hb|[Ht _]]; [by left|right]. by eapply HS. }
      exists h1'. split; [|done]. eapply ro_ref_narrow; [done..|by eapply kd_dataset|done].
    - intros h sc t s a field x r h1 out Hs Hv Hf Hd _ IH h' sc' Hg HF Hb. pose proof Hg as (Ha & _).
      destruct (kd_found _ _ _ _ Ha _ _ _ Hf _ HF) as (r' & Hf' & Hr). destruct (IH h' sc' Hg HF) as (h1' & ? & ?).
      { destruct Hb as [Hb|[Ht _]]; [by left|right]. by eapply HS. }
      exists h1'. split; [|done]. eapply ro_ref_keep; [done..| |done]. by eapply kd_not_dataset.
    - intros h sc t s a ws x h1 out Hs H1 H2 Hv _ IH h' sc' Hg HF Hb. destruct (IH h' sc' Hg HF) as (h1' & ? & ?).
      { destruct Hb as [Hb|[Ht _]]; [by left|right]. by eapply HS. }
      exists h1'. split; [|done]. by eapply ro_ref.
    - intros h sc t s a ws Hs H2 Hv h' sc' Hg HF _. exists h'. split; [|done]. by eapply ro_ref_unknown.
    - intros h sc t s d q x c xs h1 out Hs Hv Hf Hc Hx _ IH h' sc' Hg HF Hb. pose proof Hg as (Ha & _).
      destruct (kd_found _ _ _ _ Ha _ _ _ Hf _ HF) as (r' & Hf' & Hr). inversion Hr as [? v' Hvv|]; subst.
      apply sv_ref in Hvv as (c' & -> & HR). destruct (kd_coll _ _ _ _ Ha _ _ _ HR Hc) as (xs' & Hc' & HFx).
      destruct (IH h' sc' xs' Hg HF) as (h1' & Hl & ?); [|done|].
      { destruct Hb as [Hb|[Ht _]]; [by left|right]. split; [done|by eapply HS]. }
      exists h1'. split; [|done]. rewrite (Forall2_length _ _ _ HFx) in Hl.
      eapply ro_range; [done..| |done]. intros ->. by inversion HFx; subst.
    - intros h sc t s d q x r p h1 out Hs Hv Hf Hn Hq _ IH h' sc' Hg HF Hb. pose proof Hg as (Ha & _).
      destruct (kd_found _ _ _ _ Ha _ _ _ Hf _ HF) as (r' & Hf' & Hr). destruct (IH h' sc' Hg HF) as (h1' & ? & ?).
      { destruct Hb as [Hb|[Ht _]]; [by left|right]. eapply or_else_in; [done| |done]. by eapply HS. }
      exists h1'. split; [|done]. eapply ro_range_none; [done..| |done|done]. intros c' xs' -> Hc'.
      inversion Hr as [v ? Hvv|]; subst. destruct Hvv as [[<- Hne]|(c & ? & -> & [= <-] & HR)]; [by destruct (Hne c')|].
      destruct (kd_coll_r _ _ _ _ _ _ _ Ha HR Hc') as (xs & Hc & HFx). rewrite (Hn c xs eq_refl Hc) in HFx. by inversion HFx.
    - intros h sc t s d q Hs Hv h' sc' Hg HF _. exists h'. split; [|done]. by eapply ro_range_unknown.
    - intros h sc t s d q x v p h1 out u Hs Hv Hf Hd Hq _ IH Hp h' sc' Hg HF Hb. pose proof Hg as (Ha & _).
      destruct (kd_found _ _ _ _ Ha _ _ _ Hf _ HF) as (r' & Hf' & Hr). inversion Hr as [? v' Hvv|]; subst.
      pose proof Hvv as (d' & -> & HR)%sv_ref. destruct (IH h' (d' :: sc') Hg) as (h1' & ? & Hg1).
      { by constructor. } { destruct Hb as [Hb|[Ht _]]; [by left|right]. eapply or_else_in; [done| |done]. by eapply HS. }
      destruct (kd_prints_some R b h1 h1' (proj1 Hg1) F ord ord' Ho Ho' _ _ _ Hvv Hp) as [u' Hu'].
      exists h1'. split; [|done]. eapply ro_cond_dataset; [done..|by eapply kd_dataset|done|done|done].
    - intros h sc t s d q x v w p h1 out u Hs Hv Hf Hn Hnd Hp Hw Hq _ IH Hu h' sc' Hg HF Hb. pose proof Hg as (Ha & _ & Hk).
      destruct (kd_found _ _ _ _ Ha _ _ _ Hf _ HF) as (r' & Hf' & Hr). inversion Hr as [? v' Hvv|]; subst.
      destruct (IH h' sc' Hg HF) as (h1' & ? & Hg1).
      { destruct Hb as [Hb|[Ht _]]; [by left|right]. eapply or_else_in; [done| |done]. by eapply HS. }
      destruct (kd_prints_some R b h1 h1' (proj1 Hg1) F ord ord' Ho Ho' _ _ _ Hvv Hu) as [u' Hu'].
      exists h1'. split; [|done]. eapply (ro_cond_value F ord' th lg h' sc' t s d q x v' w p); [done..| | | |done|done|done|done].
      + intros ->. apply Hn. by apply (sv_nil R v VNil).
      + intros l Hl. eapply (kd_not_dataset R b h h' Ha (Some v) (Some v')); [done| |by subst]. intros l0 [= ->]. by apply Hnd.
      + eapply (kd_prints R b h h' Ha F ord ord' Ho Ho'); [|done|done]. destruct Hb as [Hb|[_ Hb]]; [by left|right]. intros l ->.
        inversion Hb as [| | | | | | |? Htab]; subst. specialize (kept_tables _ _ _ Hk (Htab d q Hs)) as Ht.
        destruct (found_end _ _ _ _ Hf) as [(k & Htl & Hbi)|(k & i & Htl & Hden)]; [|by destruct (proj1 (Ht k Htl) i)].
        destruct (h !! l) as [o|] eqn:El; [|done]. exfalso. destruct o as [m|y|xs|xs].
        * apply (Hnd l eq_refl). left. eauto.
        * apply (Hnd l eq_refl). right. eauto.
        * apply (proj2 (Ht k Htl) l xs Hbi). by left.
        * apply (proj2 (Ht k Htl) l xs Hbi). by right.
    - intros h sc t s d q v w Hs Hv Hf Hn Hp Hw h' sc' Hg HF _. pose proof Hg as (Ha & _).
      destruct (kd_found _ _ _ _ Ha _ _ _ Hf _ HF) as (r' & Hf' & Hr). inversion Hr as [? v' Hvv|]; subst.
      destruct (kd_nonempty R b h h' F ord ord' v v' w Ha Ho Ho' Hvv Hp Hw) as (w' & ? & ?).
      exists h'. split; [|done]. eapply ro_cond_unknown; [done..| |done|done]. intros ->. apply Hn. by apply (sv_nil R v VNil).
    - intros h sc t s d q r p y h1 out Hs Hv Hf Hbl Hq _ IH h' sc' Hg HF Hb. pose proof Hg as (Ha & _).
      destruct (kd_found _ _ _ _ Ha _ _ _ Hf _ HF) as (r' & Hf' & Hr). destruct (IH h' sc' Hg HF) as (h1' & ? & ?).
      { destruct Hb as [Hb|[Ht _]]; [by left|right]. intros x Hx. destruct y as [z|]; simplify_eq; by eapply HS. }
      exists h1'. split; [|done]. eapply ro_cond_blank; [done..| |done|done]. by eapply (kd_blank R b h h' Ha F ord ord' Ho Ho').
    - intros h sc t q x i n h' sc' ds' Hg HF _ Hd. inversion Hd; subst. exists h'. split; [constructor|done].
    - intros h sc t q x i n d ds p h1 h2 h3 o1 o2 Hq (y & m & Hi & ->) _ IH1 _ IH2 h' sc' ds' Hg HF Hb Hd. pose proof Hg as (Ha & H1 & Hk).
      inversion Hd as [|? e ? ds2 Hde Hds]; subst. inversion Hde as [? d' HR|]; subst.
      destruct (kd_inside _ _ _ _ Ha _ _ _ _ HR Hi) as (y' & m' & Hi' & HRy & Hm). apply inside_at in Hi as Hy. apply inside_at in Hi' as Hy'.
      edestruct (IH1 (<[y' := ODs (<[B ".counter" := VInt KInt (Z.of_nat i + 1)%Z]> m')]> h') (d' :: sc')) as (h2' & ? & Hg2).
      { split; [|split]; [|by eapply one_stores|by apply kept_store]. eapply alike_stores; [done..|]. intros k. destruct (decide (k = B ".counter")) as [->|Hne].
        - rewrite !lookup_insert. constructor. by left.
        - rewrite !lookup_insert_ne by done. apply Hm. }
      { by constructor. }
      { destruct Hb as [Hb|[Ht Hx]]; [by left|right]. destruct p as [z|]; simpl; [exact (choose_in _ _ _ Ht Hq)|done]. }
      destruct (IH2 h2' sc' ds2 Hg2 HF Hb Hds) as (h3' & ? & ?). exists h3'. split; [|done].
      eapply lp_next; [done| |done|done]. by exists y', m'.
  Qed.
End Execute.

Lemma kd_language R b h h' langs d d' lg : alike R b h h' -> R d d' -> language_of langs h d lg -> language_of langs h' d' lg.
Proof.
  intros Ha HR (r & Hr & Hl). destruct (kd_answers R b h h' Ha _ _ _ _ HR Hr) as (r' & Hr' & Hs). exists r'. split; [done|].
  destruct Hl as [(k & -> & ->)|[Hn ->]].
  - left. exists k. inversion Hs as [? v' Hv|]; subst. destruct Hv as [[-> _]|(? & ? & ? & _)]; done.
  - right. split; [|done]. intros k ->. inversion Hs as [v ? Hv|]; subst. destruct Hv as [[<- _]|(? & ? & _ & ? & _)]; [|done]. by apply (Hn k).
Qed.
Lemma kd_execute R b F ord ord' langs th n h h' t d d' h1 out : compiled th -> order_ok ord -> order_ok ord' -> b = true \/ modest_template th h t ->
  alike R b h h' -> one_to_one R h h' -> R d d' -> execute F ord langs th n h t (Some d) = Ok (h1, out) ->
  exists n' h1', execute F ord' langs th n' h' t (Some d') = Ok (h1', out) /\ alike R b h1 h1' /\ one_to_one R h1 h1'.
Proof.
  intros Hc Ho Ho' Hb Ha H1 HR H. assert (He : executes F ord langs th h t d h1 out) by (apply execute_meaning; [done|by exists n]).
  destruct He as (lg & Hlg & Hr).
  destruct (proj1 (kd_renders R b h F ord ord' Ho Ho' th lg (fun x => reaches th t x /\ modest_template th h t)
    ltac:(intros x nm y [Hx Hm] Hv; split; [|done]; eapply rtc_r; [exact Hx|by exists nm])
    ltac:(intros x T l [Hx Hm] HT Hl; by eapply Hm)) _ _ _ _ _ Hr h' [d']) as (h1' & Hr' & Ha' & H1' & _).
  - split; [done|]. split; [done|]. split; done.
  - by repeat constructor.
  - destruct Hb as [Hb|Hb]; [by left|right]. split; [apply rtc_refl|done].
  - assert (Hx : executes F ord' langs th h' t d' h1' out) by (exists lg; split; [by eapply kd_language|done]).
    apply execute_meaning in Hx as [n' Hx]; [|done]. by exists n', h1'.
Qed.

(** * Rewriting the text of a template: proofs (C111). *)
From Verif Require Import GoBase GoStrings GoStringsProofs DatasetModel LangModel DatasetSpec TemplateModel TemplateSpec TemplateProofs2 TemplateProofs3 TemplateProofs4
  TemplateProofs5 TemplateProofs6 RenderSpec RenderProofs RenderProofs5 RenderProofs6 RenderProofs10 DatasetProofs WriteSpec WriteProofs LawsSpec.
From Coq Require Import Lia.

(** ** The boxes of a list of items *)
Definition boxes (is : list item) : list (loc * bytes * list item) := flat_map (fun i => match i with Leaf _ => [] | Box x nm b => [(x, nm, b)] end) is.
Lemma leaves_words is : leaves is = top_words (map node_of is).
Proof. unfold leaves, top_words. induction is as [|[k|x nm b] is IH]; [done|..]; cbn [map flat_map node_of]; by rewrite IH. Qed.
Lemma boxes_parts is : map (fun b => (b.1.2, map node_of b.2)) (boxes is) = parts (map node_of is).
Proof. unfold boxes, parts. induction is as [|[k|x nm b] is IH]; [done|..]; cbn [map flat_map node_of app]; [done|by rewrite IH]. Qed.
Lemma elem_boxes is x nm b : (x, nm, b) ∈ boxes is <-> Box x nm b ∈ is.
Proof.
  unfold boxes. rewrite elem_of_list_In, in_flat_map. split.
  - intros (i & Hi & H). destruct i as [k|x' nm' b']; [done|]. destruct H as [[= <- <- <-]|[]]. by apply elem_of_list_In.
  - intros H. exists (Box x nm b). split; [by apply elem_of_list_In|]. by left.
Qed.
Lemma boxes_app a b : boxes (a ++ b) = boxes a ++ boxes b.
Proof. apply flat_map_app. Qed.
Lemma boxes_split is u e v : boxes is = u ++ e :: v -> exists a b, is = a ++ Box e.1.1 e.1.2 e.2 :: b /\ boxes a = u /\ boxes b = v.
Proof.
  revert u. induction is as [|[k|x nm bd] is IH]; intros u E; [by destruct u| |].
  - destruct (IH u E) as (a & b & -> & Ha & Hb). by exists (Leaf k :: a), b.
  - cbn [boxes flat_map app] in E. destruct u as [|e0 u].
    + injection E as <- E. by exists [], is.
    + injection E as <- E. destruct (IH u E) as (a & b & -> & Ha & Hb). exists (Box x nm bd :: a), b. split; [done|]. split; [|done].
      cbn [boxes flat_map app]. by f_equal.
Qed.
Lemma defines_boxes is n x : defines is n x <->
  exists u nm bd v, boxes is = u ++ (x, nm, bd) :: v /\ part nm n /\ forall x' nm' bd', (x', nm', bd') ∈ v -> ~ part nm' n.
Proof.
  split.
  - intros (a & nm & bd & b & -> & Hp & Hb). exists (boxes a), nm, bd, (boxes b). split; [by rewrite boxes_app|]. split; [done|].
    intros x' nm' bd' H. apply elem_boxes in H. by eapply Hb.
  - intros (u & nm & bd & v & E & Hp & Hb). destruct (boxes_split _ _ _ _ E) as (a & b & -> & _ & Hv). exists a, nm, bd, b. split; [done|]. split; [done|].
    intros x' nm' bd' H. apply (Hb x' nm' bd'). rewrite <- Hv. by apply elem_boxes.
Qed.
(** Names of the tree are names of the boxes. *)
Lemma defines_named is n x : defines is n x -> exists nm bd, Box x nm bd ∈ is /\ part nm n /\ named (parts (map node_of is)) n (map node_of bd).
Proof.
  intros (u & nm & bd & v & Eb & Hp & Hv)%defines_boxes. exists nm, bd. split; [apply elem_boxes; rewrite Eb; apply elem_of_app; right; by left|].
  split; [done|]. rewrite <- boxes_parts, Eb, map_app. cbn [map fst snd]. eexists _, nm, _. split; [done|]. split; [done|].
  intros nm' b' H. apply elem_of_list_fmap in H as ([[x3 nm3] bd3] & [= -> _] & H3). by apply (Hv x3 nm3 bd3).
Qed.
Lemma named_defines is n b : named (parts (map node_of is)) n b -> exists x nm bd, defines is n x /\ Box x nm bd ∈ is /\ part nm n /\ map node_of bd = b.
Proof.
  rewrite <- boxes_parts. intros (u & nm & v & E & Hp & Hv). apply map_eq_app in E as (u' & w & Eb & Eu & Ew).
  apply map_eq_cons in Ew as ([[x nm'] bd] & v' & -> & [= -> Ebd] & Ev). exists x, nm, bd. cbn [snd] in Ebd.
  split; [|split; [|done]]; [|apply elem_boxes; rewrite Eb; apply elem_of_app; right; by left].
  apply defines_boxes. exists u', nm, bd, v'. split; [done|]. split; [done|]. intros x2 nm2 bd2 H2. apply (Hv nm2 (map node_of bd2)).
  rewrite <- Ev. apply elem_of_list_fmap. by exists (x2, nm2, bd2).
Qed.
Lemma alike_sym ns ns' : alike ns ns' -> alike ns' ns.
Proof.
  revert ns ns'. fix IH 3. intros ns ns' [E H1 H2]. constructor; [done| |].
  - intros a b Hb. destruct (H2 a b Hb) as (b' & Hb' & Ha). exists b'. split; [done|]. by apply IH.
  - intros a b Hb. destruct (H1 a b Hb) as (b' & Hb' & Ha). exists b'. split; [done|]. by apply IH.
Qed.
Lemma mates_sym ns ns' : mates ns ns' -> mates ns' ns.
Proof.
  intros [H1 H2]. split; intros a b Hb; [destruct (H2 a b Hb) as (b' & Hb' & Ha)|destruct (H1 a b Hb) as (b' & Hb' & Ha)]; exists b'; (split; [done|]); by apply alike_sym.
Qed.
Lemma alike_mates ns ns' : alike ns ns' -> mates ns ns'.
Proof. by intros [_ H1 H2]. Qed.
Lemma named_smaller ns a b : named (parts ns) a b -> (length (words b) < length (words ns))%nat.
Proof.
  intros (u & nm & v & E & _). revert u E. induction ns as [|[t|nm' bd] ns IH]; intros u E; [by destruct u| |].
  - specialize (IH u E). unfold words in *. cbn [flat_map node_words app length]. lia.
  - cbn [parts flat_map app] in E. unfold words in *. cbn [flat_map node_words]. rewrite !app_length. cbn [length]. rewrite !app_length.
    destruct u as [|e u]; injection E as E1 E2; [subst; cbn [length]; lia|]. specialize (IH u E2). lia.
Qed.
Lemma alike_refl ns : alike ns ns.
Proof.
  induction ns as [ns IH] using (well_founded_induction (Wf_nat.well_founded_ltof _ (fun l => length (words l)))).
  constructor; [done| |]; intros a b Hb; (exists b; split; [done|]); apply IH; by apply (named_smaller _ a).
Qed.
Lemma named_unique ps a b b' : named ps a b -> named ps a b' -> b = b'.
Proof.
  intros (u & nm & v & -> & Hp & Hv) (u' & nm' & v' & E & Hp' & Hv'). revert u' E. induction u as [|e u IH]; intros u' E.
  - destruct u' as [|e' u']; [by injection E as _ -> _|]. cbn [app] in E. injection E as E0 E. destruct (Hv nm' b'); [|done].
    subst. apply elem_of_app. right. by left.
  - destruct u' as [|e' u']; cbn [app] in E; injection E as E1 E2; [|by apply (IH u')]. subst e. destruct (Hv' nm b); [|done].
    subst. apply elem_of_app. right. by left.
Qed.
Lemma alike_trans a b c : alike a b -> alike b c -> alike a c.
Proof.
  revert a b c. fix IH 4. intros a b c [E1 F1 B1] [E2 F2 B2]. constructor; [congruence| |].
  - intros x y Hy. destruct (F1 x y Hy) as (y1 & Hy1 & A1). destruct (F2 x y1 Hy1) as (y2 & Hy2 & A2). exists y2. split; [done|]. by apply (IH _ y1).
  - intros x y Hy. destruct (B2 x y Hy) as (y1 & Hy1 & A1). destruct (B1 x y1 Hy1) as (y2 & Hy2 & A2). exists y2. split; [done|]. by apply (IH _ y1).
Qed.
Lemma said_params is : List.filter shown (map stored (leaves is)) = map stored (said (map node_of is)).
Proof.
  rewrite leaves_words. unfold said. induction (top_words (map node_of is)) as [|t l IH]; [done|]. cbn [map List.filter].
  destruct t; cbn; by rewrite IH.
Qed.

Lemma subs_is T name : t_subs T ≫= (fun m => m !! name) = subs_of T !! name.
Proof. unfold subs_of. by destruct (t_subs T). Qed.
(** The sub templates of [x] are the boxes of [is]. *)
Definition framed (th : theap) (x : loc) (X : tmpl) (is : list item) : Prop :=
  th !! x = Some X /\ registers ∅ is (t_subs X) /\ forall i, i ∈ is -> box_ok th x i.
Section Twins.
  Context (th th' : theap) (top top' : loc).
  (** Boxes with the same text, in boxes with the same text or in the two top templates. *)
  Inductive twin : loc -> loc -> Prop :=
  | tw x x' X X' is is' f f' : framed th x X is -> framed th' x' X' is' -> t_root X = Some (map stored (leaves is)) ->
      t_root X' = Some (map stored (leaves is')) -> alike (map node_of is) (map node_of is') -> t_father X = Some f -> t_father X' = Some f' ->
      (f = top /\ f' = top' \/ twin f f') -> twin x x'.
  Definition looks (x x' : loc) : Prop := x = top /\ x' = top' \/ twin x x'.
  Context (T T' : tmpl) (is is' : list item) (HT : framed th top T is) (HT' : framed th' top' T' is')
    (Hparts : mates (map node_of is) (map node_of is')) (Hf : t_father T = None) (Hf' : t_father T' = None).
  Lemma framed_subs x x' X X' js js' name : framed th x X js -> framed th' x' X' js' -> mates (map node_of js) (map node_of js') ->
    looks x x' -> same_answer twin (subs_of X !! name) (subs_of X' !! name).
  Proof.
    intros (HX & Hr & Hb) (HX' & Hr' & Hb') Hp Hl. destruct (Hr name) as [R1 R2], (Hr' name) as [R1' R2'].
    assert (Es : forall Y, t_subs Y ≫= lookup name = subs_of Y !! name) by apply (fun Y => subs_is Y name).
    rewrite Es in R1, R2, R1', R2'. clear Es.
    destruct (defines_dec js name) as [[y Hy]|Hn].
    - destruct (defines_named _ _ _ Hy) as (nm & bd & Hin & Hpn & Hnm). destruct (proj1 Hp _ _ Hnm) as (b' & Hnm' & Ha).
      destruct (named_defines _ _ _ Hnm') as (y' & nm' & bd' & Hy' & Hin' & Hpn' & <-).
      rewrite (R1 y Hy), (R1' y' Hy'). cbn [same_answer].
      pose proof (Hb _ Hin) as B1. pose proof (Hb' _ Hin') as B1'. inversion B1 as [|? ? ? Y HY HYn HYr HYs HYf HYb]; subst. inversion B1' as [|? ? ? Y' HY' HYn' HYr' HYs' HYf' HYb']; subst.
      apply (tw y y' Y Y' bd bd' x x'); try done; [by apply HYf; exists name|by apply HYf'; exists name].
    - rewrite (R2 Hn). destruct (defines_dec js' name) as [[y' Hy']|Hn']; [|by rewrite (R2' Hn')].
      destruct (defines_named _ _ _ Hy') as (nm & bd & Hin & Hpn & Hnm). destruct (proj2 Hp _ _ Hnm) as (b' & Hnm' & Ha).
      destruct (named_defines _ _ _ Hnm') as (y & _ & _ & Hy & _). by destruct (Hn y).
  Qed.
  Lemma looks_lookup k : forall k' x x' name, (k <= k')%nat -> looks x x' -> orel (same_answer twin) (get_template k th x name) (get_template k' th' x' name).
  Proof.
    induction k as [|k IH]; intros k' x x' name Hk Hl; [by left|]. destruct k' as [|k']; [lia|]. cbn [get_template].
    destruct Hl as [[-> ->]|Ht].
    - pose proof (framed_subs _ _ _ _ _ _ name HT HT' Hparts (or_introl (conj eq_refl eq_refl))) as Hs.
      destruct HT as [-> _], HT' as [-> _]. rewrite !subs_is, Hf, Hf'. destruct (subs_of T !! name), (subs_of T' !! name); try done; by apply orel_ok.
    - pose proof (or_intror Ht : looks x x') as Hl. destruct Ht as [x x' X X' js js' f f' HX HX' _ _ E F1 F2 Hff].
      pose proof (framed_subs _ _ _ _ _ _ name HX HX' (alike_mates _ _ E) Hl) as Hs.
      destruct HX as [-> _], HX' as [-> _]. rewrite !subs_is, F1, F2. destruct (subs_of X !! name), (subs_of X' !! name); try done; [by apply orel_ok|].
      apply IH; [lia|done].
  Qed.
  Lemma twin_injector F ord n n' lg st x x' : (n <= n')%nat -> twin x x' -> orel eq (injector F ord th n lg st x) (injector F ord th' n' lg st x').
  Proof.
    intros Hn Hx. apply (injector_sim F ord th th' twin); [done| | |done].
    - intros k k' Hk y y' name Hy. apply looks_lookup; [done|by right].
    - intros y y' Hy. destruct Hy as [y y' Y Y' js js' f f' HY HY' E1 E2 E _ _ _]. destruct HY as [-> _], HY' as [-> _].
      unfold same_root. rewrite E1, E2, !said_params. by destruct E as [-> _ _].
  Qed.
  Lemma top_params F ord n n' lg st ps : (n <= n')%nat ->
    orel eq (do_params F ord th n lg (injector F ord th n lg) st top ps) (do_params F ord th' n' lg (injector F ord th' n' lg) st top' ps).
  Proof.
    intros Hn. apply (do_params_sim F ord th th' twin n n' Hn lg looks).
    - intros x x' name. by apply looks_lookup.
    - intros st0 x x'. by apply twin_injector.
    - by left.
  Qed.
End Twins.

Lemma do_params_app F ord th n lg inj st t p1 p2 : do_params F ord th n lg inj st t (p1 ++ p2) =
  ('(st1, a) <-! do_params F ord th n lg inj st t p1; '(st2, b) <-! do_params F ord th n lg inj st1 t p2; Ok (st2, a ++ b)).
Proof.
  revert st. induction p1 as [|p p1 IH]; intros st.
  - cbn [app do_params obind]. by destruct (do_params F ord th n lg inj st t p2) as [[st2 b]| |].
  - cbn [app do_params]. destruct (do_param F ord th n lg inj st t p) as [[st1 a]| |]; cbn [obind]; [|done..]. rewrite IH.
    destruct (do_params F ord th n lg inj st1 t p1) as [[st2 b]| |]; cbn [obind]; [|done..].
    destruct (do_params F ord th n lg inj st2 t p2) as [[st3 c]| |]; cbn [obind]; [|done..]. by rewrite app_assoc.
Qed.

(** ** Templates loaded from texts *)
(** [t] is loaded from a text with the tree [ns]. *)
Definition from_tree (th : theap) (t : loc) (ns : list node) : Prop :=
  exists T is, framed th t T is /\ t_root T = Some (map stored (leaves is)) /\ t_father T = None /\ map node_of is = ns.
Lemma loaded_tree th0 data ns th t : text_tree data ns -> new_template th0 data = (th, Some t) -> from_tree th t ns.
Proof.
  intros [Hp Hr] Hnew. pose proof (all_balanced _ Hp) as Hb.
  destruct (new_template_boxes th0 _ _ Hr Hb) as (th' & t' & is & T & Hnew' & Hlay & Hl & _ & Hnt & Hnd & _ & HT & _ & Hf & _).
  rewrite Hnew in Hnew'. injection Hnew' as <- <-. destruct Hl as (T1 & HT1 & Hroot & Hreg & Hbox). assert (T1 = T) as -> by congruence.
  exists T, is. split; [done|]. split; [done|]. split; [done|].
  apply layout_words in Hlay as [E Hpr]. destruct (words_inj (map node_of is) ns [] []) as [? _]; try done; try by left.
  by rewrite !app_nil_r.
Qed.
Lemma tree_loads th0 data ns : text_tree data ns -> exists th t, new_template th0 data = (th, Some t).
Proof.
  intros [Hp Hr]. pose proof (all_balanced _ Hp) as Hb.
  destruct (new_template_boxes th0 _ _ Hr Hb) as (th' & t' & is & T & Hnew' & _). eauto.
Qed.

Lemma loads_tree th0 data th t : new_template th0 data = (th, Some t) -> exists ns, text_tree data ns.
Proof.
  intros H. destruct (first_pass_reads data) as (l & Hr & _). assert (Hb : balanced 0 l) by (apply (new_template_balanced th0 data l Hr); exists t; by rewrite H).
  destruct (new_template_boxes th0 _ _ Hr Hb) as (th' & t' & is & T & _ & Hlay & _). exists (map node_of is).
  apply layout_words in Hlay as [<- Hp]. by split.
Qed.
Lemma tree_unique data ns ns' : text_tree data ns -> text_tree data ns' -> ns = ns'.
Proof.
  intros [H1 R1] [H2 R2]. pose proof (reads_unique _ _ _ R1 R2) as E. destruct (words_inj ns ns' [] []) as [? _]; try done; try by left. by rewrite !app_nil_r.
Qed.

(** ** Trees that say the same *)
Section Laws.
  Context (F : golib) (ord : heap -> gmap bytes value -> list (bytes * value)) (langs : nat -> option lang).
  Lemma tree_params th t ns th' t' ns' n n' lg st ps : from_tree th t ns -> from_tree th' t' ns' -> mates ns ns' -> (n <= n')%nat ->
    orel eq (do_params F ord th n lg (injector F ord th n lg) st t ps) (do_params F ord th' n' lg (injector F ord th' n' lg) st t' ps).
  Proof.
    intros (T & is & HT & _ & Hf & <-) (T' & is' & HT' & _ & Hf' & <-) Hp Hn. by eapply (top_params th th' t t' T T' is is').
  Qed.
  Lemma tree_root th t ns : from_tree th t ns -> exists T ps, th !! t = Some T /\ t_root T = Some ps /\ List.filter shown ps = map stored (said ns).
  Proof. intros (T & is & [HT _] & Hr & _ & <-). exists T, (map stored (leaves is)). by rewrite said_params. Qed.
  Lemma tree_injector th t ns n lg st : from_tree th t ns -> injector F ord th (S n) lg st t =
    ('(st1, outs) <-! do_params F ord th n lg (injector F ord th n lg) st t (map stored (said ns)); Ok (st1, concat outs)).
  Proof. intros H. destruct (tree_root _ _ _ H) as (T & ps & HT & Hr & <-). rewrite do_params_shown. cbn [injector]. by rewrite HT, Hr. Qed.
  Lemma params_same th t ns th' t' ns' n lg st ps : from_tree th t ns -> from_tree th' t' ns' -> mates ns ns' ->
    do_params F ord th n lg (injector F ord th n lg) st t ps = do_params F ord th' n lg (injector F ord th' n lg) st t' ps.
  Proof. intros H H' Hp. apply orel_eq; [by eapply tree_params|]. eapply tree_params; [done..| |done]. by apply mates_sym. Qed.
  Lemma injector_same th t ns th' t' ns' n lg st : from_tree th t ns -> from_tree th' t' ns' -> alike ns ns' ->
    injector F ord th n lg st t = injector F ord th' n lg st t'.
  Proof.
    intros H H' Ha. destruct n as [|n]; [done|]. rewrite (tree_injector _ _ _ _ _ _ H), (tree_injector _ _ _ _ _ _ H').
    rewrite (params_same _ _ _ _ _ _ n lg st _ H H' (alike_mates _ _ Ha)). by destruct Ha as [-> _ _].
  Qed.
  Lemma execute_same th t ns th' t' ns' : from_tree th t ns -> from_tree th' t' ns' -> alike ns ns' ->
    forall n h data, execute F ord langs th n h t data = execute F ord langs th' n h t' data.
  Proof.
    intros H H' Ha n h data. unfold execute. destruct data as [d|]; [|by rewrite (injector_same _ _ _ _ _ _ n None _ H H' Ha)].
    destruct (dget n h d (B "#")) as [r| |]; cbn [obind]; [|done..]. by rewrite (injector_same _ _ _ _ _ _ n _ _ H H' Ha).
  Qed.

  (** ** One after the other *)
  Lemma injector_concat th t ns tha ta nsa thb tb nsb n lg st : from_tree th t ns -> from_tree tha ta nsa -> from_tree thb tb nsb ->
    mates nsa ns -> mates nsb ns -> said ns = said nsa ++ said nsb ->
    injector F ord th n lg st t = ('(st1, a) <-! injector F ord tha n lg st ta; '(st2, b) <-! injector F ord thb n lg st1 tb; Ok (st2, a ++ b)).
  Proof.
    intros H Ha Hb Pa Pb Hw. destruct n as [|n]; [done|]. rewrite (tree_injector _ _ _ _ _ _ H), (tree_injector _ _ _ _ _ _ Ha), Hw, map_app, do_params_app.
    rewrite <- (params_same _ _ _ _ _ _ n lg st _ Ha H Pa).
    destruct (do_params F ord tha n lg _ st ta _) as [[st1 a]| |]; cbn [obind]; [|done..]. rewrite (tree_injector _ _ _ _ _ _ Hb).
    rewrite <- (params_same _ _ _ _ _ _ n lg st1 _ Hb H Pb).
    destruct (do_params F ord thb n lg _ st1 tb _) as [[st2 b]| |]; cbn [obind]; [|done..]. by rewrite concat_app.
  Qed.
  Lemma counted_hash h h' n d : counted h h' -> dget n h' d (B "#") = dget n h d (B "#").
  Proof.
    intros Hc. revert d. induction n as [|n IH]; intros d; [done|]. cbn [dget].
    change (split_on gt (B "#")) with [B "#"]. cbv iota.
    destruct (Hc d) as [->|(m & c & xs & i & e & Hd & _ & _ & _ & ->)].
    - destruct (h !! d) as [[m|[e|]|ys|ys]|]; try done.
    - rewrite Hd. by rewrite lookup_insert_ne.
  Qed.
  Lemma execute_concat0 th t ns tha ta nsa thb tb nsb : compiled tha -> closed tha -> from_tree th t ns -> from_tree tha ta nsa -> from_tree thb tb nsb ->
    mates nsa ns -> mates nsb ns -> said ns = said nsa ++ said nsb ->
    forall n h data, execute F ord langs th n h t data =
      ('(h1, a) <-! execute F ord langs tha n h ta data; '(h2, b) <-! execute F ord langs thb n h1 tb data; Ok (h2, a ++ b)).
  Proof.
    intros Hc Hcl H Ha Hb Pa Pb Hw n h data. destruct data as [d|].
    - pose proof (fun h1 a => execute_counted F ord langs tha n h ta d h1 a Hc) as Hcount. unfold execute in *.
      destruct (dget n h d (B "#")) as [r| |] eqn:Er; cbn [obind] in *; [|done..].
      set (lg := match r with Some (VOther k) => langs k | _ => None end) in *.
      rewrite (injector_concat _ _ _ _ _ _ _ _ _ n lg _ H Ha Hb Pa Pb Hw).
      destruct (injector F ord tha n lg (h, Some [d]) ta) as [[[h1 sc1] a]| |] eqn:Ei; cbn [obind]; [|done..].
      pose proof (scope_restored F ord tha n lg h [d] ta (h1, sc1) a Hc ltac:(done) Ei) as Hsc. cbn [snd] in Hsc. subst sc1.
      cbn [obind fst] in *. rewrite (counted_hash h h1 n d) by (by eapply Hcount). rewrite Er. cbn [obind]. fold lg.
      by destruct (injector F ord thb n lg (h1, Some [d]) tb) as [[[h2 sc2] b]| |].
    - unfold execute. rewrite (injector_concat _ _ _ _ _ _ _ _ _ n None _ H Ha Hb Pa Pb Hw).
      destruct (injector F ord tha n None (h, None) ta) as [[[h1 sc1] a]| |] eqn:Ei; cbn [obind]; [|done..].
      pose proof (proj1 (nil_injector F ord tha h Hcl n Hc) ta (h1, sc1) a Ei) as [[= -> ->] _].
      cbn [obind fst]. by destruct (injector F ord thb n None (h, None) tb) as [[[h2 sc2] b]| |].
  Qed.

  (** ** A reference and the text of the box *)
  Section Inline.
    Context (th th' : theap) (top top' : loc) (T T' : tmpl) (is is' : list item) (HT : framed th top T is) (HT' : framed th' top' T' is')
      (Hm : mates (map node_of is) (map node_of is')) (Hf : t_father T = None) (Hf' : t_father T' = None).
    Context (x : loc) (X : tmpl) (js : list item) (HX : framed th x X js) (HXr : t_root X = Some (map stored (leaves js))) (HXf : t_father X = Some top)
      (Hjs : parts (map node_of js) = []).
    Lemma inner_empty name : subs_of X !! name = None.
    Proof.
      destruct HX as (_ & Hr & _). destruct (Hr name) as [_ R2].
      unfold subs_of. assert (Hn : forall y, ~ defines js name y).
      { intros y Hy. destruct (defines_named _ _ _ Hy) as (nm & bd & _ & _ & Hnm). rewrite Hjs in Hnm. destruct Hnm as (u & nm' & v & E & _). by destruct u. }
      specialize (R2 Hn). rewrite lookup_empty in R2. destruct (t_subs X); [done|apply lookup_empty].
    Qed.
    Lemma inner_lookup k k' name : (k <= k')%nat -> orel (same_answer (twin th th' top top')) (get_template k th x name) (get_template k' th' top' name).
    Proof.
      intros Hk. destruct k as [|k]; [by left|]. cbn [get_template]. destruct (HX) as [-> _]. rewrite subs_is, inner_empty, HXf.
      eapply (looks_lookup th th' top top' T T' is is'); try done; [lia|by left].
    Qed.
    Lemma inner_lookup' k k' name : (S k <= k')%nat -> orel (same_answer (twin th' th top' top)) (get_template k th' top' name) (get_template k' th x name).
    Proof.
      intros Hk. destruct k' as [|k']; [lia|]. cbn [get_template]. destruct (HX) as [-> _]. rewrite subs_is, inner_empty, HXf.
      eapply (looks_lookup th' th top' top T' T is' is); try done; [by apply mates_sym|lia|by left].
    Qed.
    Lemma inner_params n n' lg st ps : (n <= n')%nat ->
      orel eq (do_params F ord th n lg (injector F ord th n lg) st x ps) (do_params F ord th' n' lg (injector F ord th' n' lg) st top' ps).
    Proof.
      intros Hn. apply (do_params_sim F ord th th' (twin th th' top top') n n' Hn lg (fun y y' => y = x /\ y' = top')); [| |done].
      - intros ? ? name [-> ->]. by apply inner_lookup.
      - intros st0 y y'. by eapply (twin_injector th th' top top' T T' is is').
    Qed.
    Lemma inner_params' n n' lg st ps : (S n <= n')%nat ->
      orel eq (do_params F ord th' n lg (injector F ord th' n lg) st top' ps) (do_params F ord th n' lg (injector F ord th n' lg) st x ps).
    Proof.
      intros Hn. apply (do_params_sim F ord th' th (twin th' th top' top) n n' ltac:(lia) lg (fun y y' => y = top' /\ y' = x)); [| |done].
      - intros ? ? name [-> ->]. by apply inner_lookup'.
      - intros st0 y y' Hy. eapply (twin_injector th' th top' top T' T is' is); try done; [by apply mates_sym|lia].
    Qed.
    Context (a : bytes) (Hx : subs_of T !! a = Some x) (Ha : ":"%char ∉ a).
    Definition texts (r r' : heap * option (list loc) * list bytes) : Prop := r.1 = r'.1 /\ concat r.2 = concat r'.2.
    Lemma ref_box n lg inj st : do_params F ord th (S n) lg inj st top [stored (TRef a)] = ('(st1, out) <-! inj st x; Ok (st1, [out])).
    Proof.
      cbn [stored do_params]. unfold do_param. cbn [p_type p_data]. rewrite !bool_decide_false by done. rewrite bool_decide_true by done. rewrite split_on_none by done.
      unfold do_reference, lookup_template. cbn [get_template]. destruct HT as [-> _]. rewrite subs_is, Hx. cbn [obind]. unfold run_on.
      by destruct (inj st x) as [[st1 out]| |].
    Qed.
    Lemma ref_forward n lg st : orel texts (do_params F ord th n lg (injector F ord th n lg) st top [stored (TRef a)])
      (do_params F ord th' n lg (injector F ord th' n lg) st top' (map stored (said (map node_of js)))).
    Proof.
      destruct n as [|n].
      { left. cbn [stored do_params]. unfold do_param. cbn [p_type p_data]. rewrite !bool_decide_false by done. rewrite bool_decide_true by done. by rewrite split_on_none by done. }
      rewrite ref_box. cbn [injector]. destruct (HX) as [-> _]. rewrite HXr, <- said_params, (do_params_shown F ord th').
      destruct (inner_params n (S n) lg st (map stored (leaves js)) ltac:(lia)) as [E|[[E1 E2]|([st1 o] & ? & E1 & E2 & <-)]]; cbn [injector] in *.
      - left. by rewrite E.
      - right. left. by rewrite E1, E2.
      - rewrite E1, E2. cbn [obind]. apply orel_ok. split; [done|]. cbn [concat snd]. by rewrite app_nil_r.
    Qed.
    Lemma ref_back n lg st : orel texts (do_params F ord th' n lg (injector F ord th' n lg) st top' (map stored (said (map node_of js))))
      (do_params F ord th (S (S n)) lg (injector F ord th (S (S n)) lg) st top [stored (TRef a)]).
    Proof.
      rewrite ref_box. destruct (HX) as [EX _]. cbn [injector]. rewrite EX, HXr, <- said_params, (do_params_shown F ord th').
      destruct (inner_params' n (S n) lg st (map stored (leaves js)) ltac:(lia)) as [E|[[E1 E2]|([st1 o] & ? & E1 & E2 & <-)]]; cbn [injector] in *.
      - by left.
      - right. left. by rewrite E1, E2.
      - rewrite E1, E2. cbn [obind]. apply orel_ok. split; [done|]. cbn [concat snd]. by rewrite app_nil_r.
    Qed.
  End Inline.
  Lemma texts_app th n lg inj t th' n' inj' t' p1 p2 q1 q2 st :
    (forall st, orel texts (do_params F ord th n lg inj st t p1) (do_params F ord th' n' lg inj' st t' q1)) ->
    (forall st, orel texts (do_params F ord th n lg inj st t p2) (do_params F ord th' n' lg inj' st t' q2)) ->
    orel texts (do_params F ord th n lg inj st t (p1 ++ p2)) (do_params F ord th' n' lg inj' st t' (q1 ++ q2)).
  Proof.
    intros H1 H2. rewrite !do_params_app. eapply orel_bind; [apply H1|]. intros [st1 o] [? o'] [E E1]. cbn in E, E1. subst.
    eapply orel_bind; [apply H2|]. intros [st2 u] [? u'] [E E2]. cbn in E, E2. subst. apply orel_ok. split; [done|]. cbn [snd]. by rewrite !concat_app, E1, E2.
  Qed.
  Lemma orel_texts x y : orel eq x y -> orel texts x y.
  Proof. intros [->|[[-> ->]|(u & v & -> & -> & <-)]]; [by left|right; by left|]. by apply orel_ok. Qed.
  Lemma execute_texts th t ns th' t' ns' n n' : from_tree th t ns -> from_tree th' t' ns' -> (n <= n')%nat ->
    (forall lg st, orel texts (do_params F ord th n lg (injector F ord th n lg) st t (map stored (said ns)))
       (do_params F ord th' n' lg (injector F ord th' n' lg) st t' (map stored (said ns')))) ->
    forall h data, orel eq (execute F ord langs th (S n) h t data) (execute F ord langs th' (S n') h t' data).
  Proof.
    intros Ht Ht' Hn H h data.
    assert (Hi : forall lg st, orel eq (injector F ord th (S n) lg st t) (injector F ord th' (S n') lg st t')).
    { intros lg st. rewrite (tree_injector _ _ _ _ _ _ Ht), (tree_injector _ _ _ _ _ _ Ht'). eapply orel_bind; [apply H|].
      intros [st1 o] [? o'] [E E1]. cbn in E, E1. subst. rewrite E1. apply orel_refl. }
    unfold execute. destruct data as [d|].
    - eapply (orel_bind eq); [apply orel_mono; intros Hd; apply (dget_mono (S n) (S n')); [lia|done|done]|]. intros r ? <-.
      eapply (orel_bind eq); [apply Hi|]. intros [st o] ? <-. apply orel_refl.
    - eapply (orel_bind eq); [apply Hi|]. intros [st o] ? <-. apply orel_refl.
  Qed.
  (** The reference at the top may be replaced by what is in the box. *)
  Lemma execute_inline0 th t ns th' t' ns' a body l1 l2 : from_tree th t ns -> from_tree th' t' ns' -> mates ns ns' ->
    named (parts ns) a body -> parts body = [] -> ":"%char ∉ a -> said ns = l1 ++ TRef a :: l2 -> said ns' = l1 ++ said body ++ l2 ->
    forall n h data, orel eq (execute F ord langs th (S n) h t data) (execute F ord langs th' (S n) h t' data) /\
      orel eq (execute F ord langs th' (S n) h t' data) (execute F ord langs th (S (S (S n))) h t data).
  Proof.
    intros Ht Ht' Hm Hb Hp Ha E E' n h data. pose proof Ht as (T & is & HT & _ & Hf & Eis). pose proof Ht' as (T' & is' & HT' & _ & Hf' & Eis').
    pose proof Hm as Hm0. rewrite <- Eis in Hb, Hm. rewrite <- Eis' in Hm. destruct (named_defines _ _ _ Hb) as (x & nm & js & Hx & Hin & Hpn & <-).
    assert (Hsub : subs_of T !! a = Some x) by (destruct HT as (_ & Hr & _); rewrite <- subs_is; by apply Hr).
    pose proof HT as (_ & _ & Hbox). specialize (Hbox _ Hin). inversion Hbox as [|? ? ? X HX HXn HXr HXs HXf HXb]; subst.
    specialize (HXf ltac:(by exists a)). assert (HXF : framed th x X js) by done.
    split.
    - apply (execute_texts _ _ _ _ _ _ n n Ht Ht' ltac:(lia)). intros lg st. rewrite E, E'. change (TRef a :: l2) with ([TRef a] ++ l2). rewrite !map_app.
      apply texts_app; [intros; apply orel_texts; by eapply tree_params|]. intros st1.
      apply texts_app; [intros|intros; apply orel_texts; by eapply tree_params]. by eapply (ref_forward th th' t t' T T' is is').
    - apply (execute_texts _ _ _ _ _ _ n (S (S n)) Ht' Ht ltac:(lia)). intros lg st. rewrite E, E'. change (TRef a :: l2) with ([TRef a] ++ l2). rewrite !map_app.
      pose proof (mates_sym _ _ Hm0).
      apply texts_app; [intros; apply orel_texts; eapply tree_params; eauto; lia|]. intros st1.
      apply texts_app; [intros|intros; apply orel_texts; eapply tree_params; eauto; lia]. by eapply (ref_back th th' t t' T T' is is').
  Qed.
  (** A reference to a name that no box has says nothing. *)
  Lemma execute_unknown0 th t ns th' t' ns' a l1 l2 : from_tree th t ns -> from_tree th' t' ns' -> mates ns ns' ->
    (forall body, ~ named (parts ns) a body) -> ":"%char ∉ a -> said ns = l1 ++ TRef a :: l2 -> said ns' = l1 ++ l2 ->
    forall n h data, execute F ord langs th (S (S n)) h t data = execute F ord langs th' (S (S n)) h t' data.
  Proof.
    intros Ht Ht' Hm Hb Ha E E' n h data. pose proof Ht as (T & is & HT & _ & Hf & Eis).
    assert (Hsub : subs_of T !! a = None).
    { destruct HT as (_ & Hr & _). destruct (Hr a) as [_ R]. assert (Es : t_subs T ≫= lookup a = subs_of T !! a) by apply (subs_is T a). rewrite <- Es, R; [done|].
      intros y Hy. destruct (defines_named _ _ _ Hy) as (nm & bd & _ & _ & Hnm). rewrite Eis in Hnm. by eapply Hb. }
    assert (Hp : forall inj lg st, do_params F ord th (S n) lg inj st t [stored (TRef a)] = Ok (st, [])).
    { intros inj lg st. cbn [stored do_params]. unfold do_param. cbn [p_type p_data]. rewrite !bool_decide_false by done. rewrite bool_decide_true by done. rewrite split_on_none by done.
      unfold do_reference, lookup_template. cbn [get_template]. destruct HT as [-> _]. by rewrite subs_is, Hsub, Hf. }
    assert (Hi : forall lg st, injector F ord th (S (S n)) lg st t = injector F ord th' (S (S n)) lg st t').
    { intros lg st. rewrite (tree_injector _ _ _ _ _ _ Ht), (tree_injector _ _ _ _ _ _ Ht'), E, E', !map_app, !do_params_app.
      rewrite (params_same _ _ _ _ _ _ (S n) lg st _ Ht Ht' Hm). destruct (do_params F ord th' (S n) lg _ st t' _) as [[st1 o1]| |]; cbn [obind]; [|done..].
      change (TRef a :: l2) with ([TRef a] ++ l2). rewrite map_app, do_params_app. change (map stored [TRef a]) with [stored (TRef a)]. rewrite Hp. cbn [obind].
      rewrite (params_same _ _ _ _ _ _ (S n) lg st1 _ Ht Ht' Hm). by destruct (do_params F ord th' (S n) lg _ st1 t' _) as [[st2 o2]| |]. }
    unfold execute. destruct data as [d|]; [|by rewrite Hi]. destruct (dget (S (S n)) h d (B "#")) as [r| |]; cbn [obind]; [by rewrite Hi|done..].
  Qed.
End Laws.

(** ** Texts *)
Lemma execute_alike F ord langs th0 th0' data data' ns ns' th t th' t' : text_tree data ns -> text_tree data' ns' -> alike ns ns' ->
  new_template th0 data = (th, Some t) -> new_template th0' data' = (th', Some t') ->
  forall n h d, execute F ord langs th n h t d = execute F ord langs th' n h t' d.
Proof. intros H H' Ha L L'. apply (execute_same F ord langs th t ns th' t' ns'); [by eapply loaded_tree|by eapply loaded_tree|done]. Qed.
Lemma execute_text F ord langs th0 th0' data th t th' t' : new_template th0 data = (th, Some t) -> new_template th0' data = (th', Some t') ->
  forall n h d, execute F ord langs th n h t d = execute F ord langs th' n h t' d.
Proof. intros L L'. destruct (loads_tree _ _ _ _ L) as [ns H]. eapply execute_alike; try done. apply alike_refl. Qed.
Lemma execute_concat F ord langs th0 th1 th2 data data1 data2 ns ns1 ns2 th t tha ta thb tb :
  text_tree data ns -> text_tree data1 ns1 -> text_tree data2 ns2 -> mates ns1 ns -> mates ns2 ns -> said ns = said ns1 ++ said ns2 ->
  new_template th0 data = (th, Some t) -> new_template th1 data1 = (tha, Some ta) -> new_template th2 data2 = (thb, Some tb) ->
  forall n h d, execute F ord langs th n h t d =
    ('(h1, a) <-! execute F ord langs tha n h ta d; '(h2, b) <-! execute F ord langs thb n h1 tb d; Ok (h2, a ++ b)).
Proof.
  intros H H1 H2 M1 M2 E L L1 L2 n h d. destruct (tree_loads ∅ data1 ns1 H1) as (tha' & ta' & L1').
  rewrite (execute_text F ord langs _ _ _ _ _ _ _ L1 L1' n h d).
  assert (Hb : built tha') by (change tha' with (tha', Some ta').1; rewrite <- L1'; constructor; constructor).
  apply built_ok in Hb as (Hc & Hcl & _).
  apply (execute_concat0 F ord langs _ _ ns _ _ ns1 _ _ ns2 Hc Hcl); try done; by eapply loaded_tree.
Qed.
Lemma execute_inline F ord langs th0 th0' data data' ns ns' a body l1 l2 th t th' t' : text_tree data ns -> text_tree data' ns' -> mates ns ns' ->
  named (parts ns) a body -> parts body = [] -> ":"%char ∉ a -> said ns = l1 ++ TRef a :: l2 -> said ns' = l1 ++ said body ++ l2 ->
  new_template th0 data = (th, Some t) -> new_template th0' data' = (th', Some t') ->
  forall h d r, r <> NoFuel -> (exists n, execute F ord langs th n h t d = r) <-> (exists n, execute F ord langs th' n h t' d = r).
Proof.
  intros H H' Hm Hb Hp Ha E E' L L' h d r Hr.
  assert (Hz : forall th t, execute F ord langs th 0 h t d = NoFuel) by (intros; by destruct d).
  pose proof (fun n => execute_inline0 F ord langs th t ns th' t' ns' a body l1 l2 (loaded_tree _ _ _ _ _ H L) (loaded_tree _ _ _ _ _ H' L') Hm Hb Hp Ha E E' n h d) as K.
  split; intros [[|n] Hn]; try (by rewrite Hz in Hn); destruct (K n) as [K1 K2].
  - exists (S n). destruct K1 as [K1|[[K1 K1']|(u & v & K1 & K1' & <-)]]; congruence.
  - exists (S (S (S n))). destruct K2 as [K2|[[K2 K2']|(u & v & K2 & K2' & <-)]]; congruence.
Qed.
Lemma execute_unknown F ord langs th0 th0' data data' ns ns' a l1 l2 th t th' t' : text_tree data ns -> text_tree data' ns' -> mates ns ns' ->
  (forall body, ~ named (parts ns) a body) -> ":"%char ∉ a -> said ns = l1 ++ TRef a :: l2 -> said ns' = l1 ++ l2 ->
  new_template th0 data = (th, Some t) -> new_template th0' data' = (th', Some t') ->
  forall n h d, execute F ord langs th (S (S n)) h t d = execute F ord langs th' (S (S n)) h t' d.
Proof. intros H H' Hm Hb Ha E E' L L'. apply (execute_unknown0 F ord langs th t ns th' t' ns' a l1 l2); try done; by eapply loaded_tree. Qed.
(** The same boxes are mates. *)
Lemma same_parts_mates ns ns' : parts ns = parts ns' -> mates ns ns'.
Proof. intros E. split; intros a b Hb; exists b; (split; [congruence|apply alike_refl]). Qed.
Lemma same_parts_alike ns ns' : said ns = said ns' -> parts ns = parts ns' -> alike ns ns'.
Proof. intros E Ep. destruct (same_parts_mates _ _ Ep). by constructor. Qed.
(** ** Cases *)
(** Parameters whose words are not marks. *)
Lemma scanned data ns : Forall proper ns -> first_pass data = map stored (words ns) -> text_tree data ns.
Proof. intros H E. split; [done|]. by apply first_pass_iff. Qed.
Ltac proper_tree := repeat first [apply Forall_nil; done | apply Forall_cons; split | apply pr_word; done | apply pr_part; apply Forall_forall].
Definition laws1 : list node := [Word (TComment (B "note")); Part (B "a") [Word (TText (B "old"))]; Word (TText (B "x")); Word (TRef (B "a"));
  Part (B "a") [Word (TText (B "A")); Word (TVar (B "n"))]; Word (TText (B "y"))].
Definition laws2 : list node := [Word (TText (B "x")); Part (B "a") [Word (TComment (B "c")); Word (TText (B "A")); Word (TVar (B "n"))];
  Word (TRef (B "a")); Word (TText (B "y"))].
Definition laws3 : list node := [Word (TText (B "x")); Part (B "a") [Word (TText (B "A")); Word (TVar (B "n"))]; Word (TText (B "A")); Word (TVar (B "n")); Word (TText (B "y"))].
Lemma laws1_tree : text_tree (B "%--note--%[[a]]old[[]]x&&a&&[[a]]A{{n}}[[]]y") laws1.
Proof. apply scanned; [proper_tree|by vm_compute]. Qed.
Lemma laws2_tree : text_tree (B "x[[a]]%--c--%A{{n}}[[]]&&a&&y") laws2.
Proof. apply scanned; [proper_tree|by vm_compute]. Qed.
Lemma laws3_tree : text_tree (B "x[[a]]A{{n}}[[]]A{{n}}y") laws3.
Proof. apply scanned; [proper_tree|by vm_compute]. Qed.
Lemma part_self n : n <> [] -> "|"%char ∉ n -> part n n.
Proof. intros H1 H2. split; [done|]. split; [done|]. exists [], []. split; [by rewrite app_nil_r|]. split; by left. Qed.
Lemma named_last u nm b a : part nm a -> named (u ++ [(nm, b)]) a b.
Proof. intros H. exists u, nm, []. split; [done|]. split; [done|]. intros ? ? []%elem_of_nil. Qed.
Lemma named_end u nm b a b' : (forall x y, (x, y) ∈ u -> x = nm) -> named (u ++ [(nm, b)]) a b' -> part nm a /\ b' = b.
Proof.
  intros Hu Hb. assert (Hp : part nm a).
  { destruct Hb as (u' & nm' & v & E & Hp & _). assert (H : (nm', b') ∈ u ++ [(nm, b)]) by (rewrite E; apply elem_of_app; right; by left).
    apply elem_of_app in H as [H|H]; [by rewrite <- (Hu _ _ H)|]. by apply elem_of_list_singleton in H as [= -> _]. }
  split; [done|]. apply (named_unique _ _ _ _ Hb). by apply named_last.
Qed.
Lemma wordy_alike l l' : said l = said l' -> parts l = [] -> parts l' = [] -> alike l l'.
Proof. intros E E1 E2. apply same_parts_alike; congruence. Qed.
Lemma one_box_mates u u' nm b b' : (forall x y, (x, y) ∈ u -> x = nm) -> (forall x y, (x, y) ∈ u' -> x = nm) -> alike b b' ->
  forall ns ns', parts ns = u ++ [(nm, b)] -> parts ns' = u' ++ [(nm, b')] -> mates ns ns'.
Proof.
  intros Hu Hu' Ha ns ns' E E'. split; intros a c; rewrite E, E'; intros [Hp ->]%named_end; try done; eexists; (split; [by apply named_last|done]).
Qed.
Lemma laws_alike : alike laws1 laws2.
Proof.
  destruct (one_box_mates [(B "a", [Word (TText (B "old"))])] [] (B "a") [Word (TText (B "A")); Word (TVar (B "n"))]
    [Word (TComment (B "c")); Word (TText (B "A")); Word (TVar (B "n"))]) with laws1 laws2 as [H1 H2]; try done.
  - intros x y H. by apply elem_of_list_singleton in H as [= -> _].
  - intros x y []%elem_of_nil.
  - by apply wordy_alike.
Qed.
Lemma laws_mates : mates laws2 laws3.
Proof.
  apply (one_box_mates [] [] (B "a") [Word (TComment (B "c")); Word (TText (B "A")); Word (TVar (B "n"))] [Word (TText (B "A")); Word (TVar (B "n"))]); try done;
    try (intros x y []%elem_of_nil); by apply wordy_alike.
Qed.
Lemma laws_named : named (parts laws2) (B "a") [Word (TComment (B "c")); Word (TText (B "A")); Word (TVar (B "n"))].
Proof. apply (named_last []). apply part_self; [done|]. by apply (bool_decide_unpack _). Qed.
Lemma inner_boxes : exists data data' ns ns' a body l1 l2, text_tree data ns /\ text_tree data' ns' /\ parts ns = parts ns' /\
  named (parts ns) a body /\ ":"%char ∉ a /\ said ns = l1 ++ TRef a :: l2 /\ said ns' = l1 ++ said body ++ l2 /\
  exists th t th' t', new_template ∅ data = (th, Some t) /\ new_template ∅ data' = (th', Some t') /\
  forall F ord langs h, execute F ord langs th 9 h t None = Ok (h, B "xy") /\ execute F ord langs th' 9 h t' None = Ok (h, B "x").
Proof.
  exists (B "&&a&&[[a]]x&&b&&[[b]]y[[]][[]]"), (B "x&&b&&[[a]]x&&b&&[[b]]y[[]][[]]").
  exists [Word (TRef (B "a")); Part (B "a") [Word (TText (B "x")); Word (TRef (B "b")); Part (B "b") [Word (TText (B "y"))]]].
  exists [Word (TText (B "x")); Word (TRef (B "b")); Part (B "a") [Word (TText (B "x")); Word (TRef (B "b")); Part (B "b") [Word (TText (B "y"))]]].
  exists (B "a"), [Word (TText (B "x")); Word (TRef (B "b")); Part (B "b") [Word (TText (B "y"))]], [], [].
  split; [apply scanned; [proper_tree|by vm_compute]|]. split; [apply scanned; [proper_tree|by vm_compute]|]. split; [done|].
  split; [apply (named_last []); apply part_self; [done|by apply (bool_decide_unpack _)]|]. split; [by apply (bool_decide_unpack _)|]. split; [done|]. split; [done|].
  eexists _, _, _, _. split; [by vm_compute|]. split; [by vm_compute|]. intros F ord langs h. by vm_compute.
Qed.
Lemma one_tree th0 data th t : new_template th0 data = (th, Some t) -> exists ns, text_tree data ns /\ forall ns', text_tree data ns' -> ns' = ns.
Proof. intros H. destruct (loads_tree _ _ _ _ H) as [ns Hn]. exists ns. split; [done|]. intros ns' Hn'. by apply (tree_unique data). Qed.
Lemma alike_equivalence : (forall ns, alike ns ns) /\ (forall a b, alike a b -> alike b a) /\ (forall a b c, alike a b -> alike b c -> alike a c) /\
  (forall ns ns', said ns = said ns' -> parts ns = parts ns' -> alike ns ns').
Proof. split; [exact alike_refl|]. split; [exact alike_sym|]. split; [exact alike_trans|exact same_parts_alike]. Qed.

(** * C125: a Get through thread safe datasets shows one moment. *)
From Verif Require Import GoBase GoStrings GoStringsProofs LangModel DatasetModel DatasetSpec DatasetProofs DatasetProofs3 SnapModel TellModel WaitModel WaitSpec WaitProofs2 WaitProofs3 PeekSpec PeekProofs.
Local Open Scope nat_scope.

Definition agree (chain : list (loc * obj)) (h : heap) : Prop := forall x o, (x, o) ∈ chain -> h !! x = Some o.
Definition watched (W : loc -> option loc) (hs : list (bool * loc)) (x : loc) : Prop := exists l w, W l = Some x /\ (w, l) ∈ hs.
Definition lasting (W : loc -> option loc) (hs : list (bool * loc)) (xo : loc * obj) : Prop :=
  (exists d, xo.2 = OTs d) \/ watched W hs xo.1.
(** No result any more; the result can only be [r]. *)
Fixpoint hopeless {A} (p : prog A) : Prop :=
  match p with Done _ => False | Crash | Short => True | Take _ _ k | Leave _ _ k => hopeless k | Look _ k => forall h, hopeless (k h) end.
Fixpoint settled {A} (r : A) (p : prog A) : Prop :=
  match p with Done a => a = r | Crash | Short => True | Take _ _ k | Leave _ _ k => settled r k | Look _ k => forall h, settled r (k h) end.
Section Find.
  Context (W : loc -> option loc) (names : list bytes).
  Definition fine (h : heap) : Prop := fits W h /\ wrappers_under names h.
  (** Still looking: with what has been seen ([chain], which lasts as long as the locks are held) the answer will be that of [G] at the last look. *)
  Fixpoint finds {A} (G : heap -> outcome A) (hs : list (bool * loc)) (chain : list (loc * obj)) (p : prog A) : Prop :=
    match p with
    | Done _ => False
    | Crash | Short => True
    | Take w l k => finds G ((w, l) :: hs) chain k
    | Leave _ _ k => hopeless k
    | Look w k => forall h, fine h -> agree chain h -> w h = h /\
        ((exists r, G h = Ok r /\ settled r (k h)) \/ exists ext, agree ext h /\ Forall (lasting W hs) ext /\ finds G hs (ext ++ chain) (k h))
    end.
  Lemma agree_app a b h : agree (a ++ b) h <-> agree a h /\ agree b h.
  Proof.
    unfold agree. split.
    - intros H. split; intros x o Hin; apply H, elem_of_app; [by left|by right].
    - intros [H1 H2] x o [Hin|Hin]%elem_of_app; [by apply H1|by apply H2].
  Qed.
  Lemma agree_cons x o c h : agree ((x, o) :: c) h <-> h !! x = Some o /\ agree c h.
  Proof.
    unfold agree. split.
    - intros H. split; [apply H, elem_of_cons; by left|]. intros y o' Hin. apply H, elem_of_cons. by right.
    - intros [H1 H2] y o' [[= -> ->]|Hin]%elem_of_cons; [exact H1|by apply H2].
  Qed.
  Lemma agree_nil h : agree [] h.
  Proof. intros x o Hin. by apply elem_of_nil in Hin. Qed.
  Lemma hopeless_bind {A C} (m : prog A) (f : A -> prog C) : hopeless m -> hopeless (pbind m f).
  Proof. induction m as [a| | |w l k IH|w l k IH|w k IH]; cbn; try done. intros H h. exact (IH h (H h)). Qed.
  Lemma hopeless_deferred {A} l (m : prog A) : hopeless m -> hopeless (deferred l m).
  Proof. induction m as [a| | |w x k IH|w x k IH|w k IH]; cbn; try done. intros H h. exact (IH h (H h)). Qed.
  Lemma settled_bind {A C} (m : prog A) (f : A -> prog C) r r' : settled r m -> settled r' (f r) -> settled r' (pbind m f).
  Proof.
    intros Hm Hf. induction m as [a| | |w l k IH|w l k IH|w k IH]; cbn in *; try done; try exact (IH Hm).
    - subst a. exact Hf.
    - intros h. exact (IH h (Hm h)).
  Qed.
  Lemma settled_deferred {A} l (m : prog A) r : settled r m -> settled r (deferred l m).
  Proof. induction m as [a| | |w x k IH|w x k IH|w k IH]; cbn; try done. intros H h. exact (IH h (H h)). Qed.
  Lemma finds_deferred {A} (G : heap -> outcome A) l m : forall hs chain, finds G hs chain m -> finds G hs chain (deferred l m).
  Proof.
    induction m as [a| | |w x k IH|w x k IH|w k IH]; cbn; intros hs chain Hm; try done.
    - exact (IH _ _ Hm).
    - exact (hopeless_deferred l k Hm).
    - intros h Hh Ha. destruct (Hm h Hh Ha) as [Hw [(r & Hr & Hs)|(ext & He & Hl & Hk)]]; (split; [exact Hw|]).
      + left. exists r. split; [exact Hr|]. exact (settled_deferred l _ r Hs).
      + right. exists ext. split; [exact He|]. split; [exact Hl|]. exact (IH h _ _ Hk).
  Qed.
  Lemma finds_bind {A C} (G : heap -> outcome A) (G' : heap -> outcome C) (c : A -> C) m f : (forall r, settled (c r) (f r)) ->
    forall hs chain, (forall h r, agree chain h -> G h = Ok r -> G' h = Ok (c r)) -> finds G hs chain m -> finds G' hs chain (pbind m f).
  Proof.
    intros Hf. induction m as [a| | |w x k IH|w x k IH|w k IH]; cbn; intros hs chain HG Hm; try done.
    - exact (IH _ _ HG Hm).
    - exact (hopeless_bind k f Hm).
    - intros h Hh Ha. destruct (Hm h Hh Ha) as [Hw [(r & Hr & Hs)|(ext & He & Hl & Hk)]]; (split; [exact Hw|]).
      + left. exists (c r). split; [exact (HG h r Ha Hr)|]. exact (settled_bind _ f r _ Hs (Hf r)).
      + right. exists ext. split; [exact He|]. split; [exact Hl|]. refine (IH h _ _ _ Hk).
        intros h' r' Ha' Hr'. apply (HG h' r'); [|exact Hr']. by apply agree_app in Ha' as [_ ?].
  Qed.

  (** The object is a wrapper that has been seen, or the inside of a wrapper whose lock is held. *)
  Definition known (hs : list (bool * loc)) (chain : list (loc * obj)) (x : loc) : Prop :=
    watched W hs x \/ exists d, (x, OTs (Some d)) ∈ chain.
  Lemma finds_get n : forall cur key hs chain (G : heap -> outcome (option value)), known hs chain cur -> (forall x, x ∈ split_on gt key -> x ∈ names) ->
    (forall h, agree chain h -> G h = dget n h cur key) -> finds G hs chain (w_get n cur key).
  Proof.
    induction n as [|n IH]; intros cur key hs chain G Hk Hn HG; [exact I|].
    intros h [Hf Hu] Ha. split; [reflexivity|]. pose proof (HG h Ha) as Eg. cbn [dget] in Eg.
    destruct (h !! cur) as [[m|[d|]|xs|xs]|] eqn:Ec.
    - destruct Hk as [Hw|[d Hd]]; [|rewrite (Ha _ _ Hd) in Ec; discriminate Ec].
      destruct (split_on gt key) as [|x0 [|x1 rest]] eqn:Es.
      + left. exists (m !! key). split; [exact Eg|reflexivity].
      + left. exists (m !! key). split; [exact Eg|reflexivity].
      + destruct (m !! x0) as [v|] eqn:Ev; [|left; exists None; split; [exact Eg|reflexivity]].
        destruct v as [| | | | | | | | | | | |y|]; try (left; exists (m !! key); split; [exact Eg|reflexivity]).
        destruct (Hu cur m x0 y Ec (Hn x0 ltac:(apply elem_of_cons; by left)) Ev) as [d2 Ey].
        cbn [as_dataset] in Eg |- *. rewrite Ey in Eg |- *. right. exists [(cur, ODs m); (y, OTs (Some d2))].
        split; [apply agree_cons; split; [exact Ec|]; apply agree_cons; split; [exact Ey|apply agree_nil]|].
        split; [apply Forall_cons; split; [right; exact Hw|]; apply Forall_cons; split; [left; by exists (Some d2)|apply Forall_nil; exact I]|].
        apply IH.
        * right. exists d2. apply elem_of_app. left. apply elem_of_cons. right. apply elem_of_list_singleton. reflexivity.
        * intros x Hx. apply Hn. rewrite (split_rest key x0 (x1 :: rest) Es ltac:(discriminate)) in Hx. apply elem_of_cons. by right.
        * intros h' Ha'. apply agree_app in Ha' as [He' Ha']. apply agree_cons in He' as [E1 He']. apply agree_cons in He' as [E2 _].
          rewrite (HG h' Ha'). cbn [dget]. rewrite E1, Es, Ev. cbn [as_dataset]. rewrite E2. reflexivity.
    - right. exists []. split; [apply agree_nil|]. split; [by apply Forall_nil|]. apply finds_deferred.
      apply IH.
      + left. exists cur, false. split; [|apply elem_of_cons; by left]. exact (proj1 (proj1 Hf cur d Ec)).
      + exact Hn.
      + intros h' Ha'. cbn [app] in Ha'. rewrite (HG h' Ha'). cbn [dget].
        destruct Hk as [(l & w & Ew & _)|[d' Hd]].
        * destruct Hf as (_ & H2 & _). destruct (H2 l cur Ew) as [_ [Hn'|[m Hm]]]; congruence.
        * pose proof (Ha _ _ Hd) as E1. pose proof (Ha' _ _ Hd) as E2. assert (d' = d) as -> by congruence. by rewrite E2.
    - right. exists []. split; [apply agree_nil|]. split; [by apply Forall_nil|exact I].
    - right. exists []. split; [apply agree_nil|]. split; [by apply Forall_nil|exact I].
    - right. exists []. split; [apply agree_nil|]. split; [by apply Forall_nil|exact I].
    - right. exists []. split; [apply agree_nil|]. split; [by apply Forall_nil|exact I].
  Qed.
  (** The typed getters whose conversion does not look at objects. *)
  Lemma finds_typed {A} N key (conv : value -> option A) zero n : (forall x, x ∈ split_on gt key -> x ∈ names) ->
    forall cur hs chain G, known hs chain cur ->
    let conv1 r := match r with Some v => match conv v with Some a => (a, true) | None => (zero, false) end | None => (zero, false) end in
    (forall h, agree chain h -> G h = on_dataset n h cur (fun l' _ => r <-! dget N h l' key; Ok (conv1 r))) ->
    finds G hs chain (w_under n cur (fun l' => r <~~ w_get N l' key; see (fun _ => Done (conv1 r)))).
  Proof.
    intros Hn. induction n as [|n IH]; intros cur hs chain G Hk conv1 HG; [exact I|].
    intros h [Hf Hu] Ha. split; [reflexivity|]. pose proof (HG h Ha) as Eg. cbn [on_dataset] in Eg.
    destruct (h !! cur) as [[m|[d|]|xs|xs]|] eqn:Ec.
    - destruct Hk as [Hw|[d Hd]]; [|rewrite (Ha _ _ Hd) in Ec; discriminate Ec].
      right. exists [(cur, ODs m)]. split; [apply agree_cons; split; [exact Ec|apply agree_nil]|].
      split; [apply Forall_cons; split; [right; exact Hw|apply Forall_nil; exact I]|].
      apply (finds_bind (fun h => dget N h cur key) G conv1).
      + intros r h'. reflexivity.
      + intros h' r Ha' Er. cbn [app] in Ha'. apply agree_cons in Ha' as [E1 Ha']. rewrite (HG h' Ha'). cbn [on_dataset]. rewrite E1, Er. reflexivity.
      + apply finds_get; [|exact Hn|reflexivity]. left. exact Hw.
    - right. exists []. split; [apply agree_nil|]. split; [by apply Forall_nil|]. apply finds_deferred. apply IH.
      + left. exists cur, false. split; [|apply elem_of_cons; by left]. exact (proj1 (proj1 Hf cur d Ec)).
      + intros h' Ha'. cbn [app] in Ha'. rewrite (HG h' Ha'). cbn [on_dataset].
        destruct Hk as [(l & w & Ew & _)|[d' Hd]].
        * destruct Hf as (_ & H2 & _). destruct (H2 l cur Ew) as [_ [Hn'|[m Hm]]]; congruence.
        * pose proof (Ha _ _ Hd) as E1. pose proof (Ha' _ _ Hd) as E2. assert (d' = d) as -> by congruence. by rewrite E2.
    - right. exists []. split; [apply agree_nil|]. split; [by apply Forall_nil|exact I].
    - right. exists []. split; [apply agree_nil|]. split; [by apply Forall_nil|exact I].
    - right. exists []. split; [apply agree_nil|]. split; [by apply Forall_nil|exact I].
    - right. exists []. split; [apply agree_nil|]. split; [by apply Forall_nil|exact I].
  Qed.

  (** ** Among other goroutines *)
  Section Course.
    Context {A : Type} (G : heap -> outcome A) (path : nat -> heap * list (routine A)) (i : nat).
    Definition progress (m : nat) : Prop := exists g, (path m).2 !! i = Some g /\
      ((exists chain, agree chain (path m).1 /\ Forall (lasting W (held g)) chain /\ finds G (held g) chain (code g)) \/
       hopeless (code g) \/
       exists r m', m' < m /\ moves i (path m') (path (S m')) /\ G (path m').1 = Ok r /\ settled r (code g)).
    Lemma lasting_more hs x chain : Forall (lasting W hs) chain -> Forall (lasting W (x :: hs)) chain.
    Proof.
      intros H. eapply Forall_impl; [exact H|]. intros [y o] [Ho|(l & w & E & Hin)]; [by left|right]. exists l, w. split; [exact E|]. apply elem_of_cons. by right.
    Qed.
    Lemma progress_other m j : j <> i -> fine (path m).1 -> Forall (guarded W) (path m).2 -> exclusive (path m).2 -> moves j (path m) (path (S m)) -> progress m -> progress (S m).
    Proof.
      intros Hj [Hf _] Hs He Hm (g & Eg & Hor). unfold progress. destruct (path m) as [h gs] eqn:E1, (path (S m)) as [h' gs'] eqn:E2. cbn [fst snd] in *.
      assert (Eg' : gs' !! i = Some g) by (inversion Hm; subst; rewrite list_lookup_insert_ne by done; exact Eg).
      exists g. split; [exact Eg'|]. destruct Hor as [(chain & Ha & Hl & Hk)|[Hh|(r & m' & Hm' & Hmv & Hr & Hset)]].
      - left. exists chain. split; [|by split]. destruct (step_spares W j i h gs h' gs' g Hf Hs He Hm Hj Eg) as [H1 H2].
        intros x o Hin. pose proof (Ha x o Hin) as E. rewrite Forall_forall in Hl. destruct (Hl (x, o) Hin) as [[d Ed]|(l & w & El & Hin')]; cbn [fst snd] in *.
        + subst o. exact (H1 x d E).
        + rewrite (H2 l x w El Hin'). exact E.
      - right. left. exact Hh.
      - right. right. exists r, m'. split; [lia|]. split; [exact Hmv|]. by split.
    Qed.
    Lemma progress_own m : fine (path m).1 -> moves i (path m) (path (S m)) -> progress m -> progress (S m).
    Proof.
      intros Hf Hm (g & Eg & Hor).
      assert (Hnow : forall h', h' = (path m).1 -> moves i (path m) (path (S m))) by done.
      unfold progress. destruct (path m) as [h gs] eqn:E1, (path (S m)) as [h' gs'] eqn:E2. cbn [fst snd] in *.
      assert (Hkeep : forall r p, (exists r0 m', m' < m /\ moves i (path m') (path (S m')) /\ G (path m').1 = Ok r0 /\ settled r0 p /\ r0 = r) ->
        exists r m', m' < S m /\ moves i (path m') (path (S m')) /\ G (path m').1 = Ok r /\ settled r p).
      { intros r p (r0 & m' & Hm' & H1 & H2 & H3 & _). exists r0, m'. split; [lia|]. by split. }
      inversion Hm as [? ? hs b l k E Hb|? ? hs l k E|? ? hs l k E Ht|? ? hs b w l k E Hin|? ? hs b w k E]; subst;
        rewrite E in Eg; injection Eg as <-; cbn [held code] in Hor;
        rewrite list_lookup_insert by exact (lookup_lt_Some _ _ _ E); (eexists; split; [reflexivity|]); cbn [held code].
      - destruct Hor as [(chain & Ha & Hl & Hk)|[Hh|(r & m' & Hm' & Hmv & Hr & Hset)]].
        + left. exists chain. split; [exact Ha|]. split; [exact (lasting_more _ _ _ Hl)|exact Hk].
        + right. left. exact Hh.
        + right. right. exists r, m'. split; [lia|]. split; [exact Hmv|]. by split.
      - destruct Hor as [(chain & Ha & Hl & Hk)|[Hh|(r & m' & Hm' & Hmv & Hr & Hset)]].
        + left. exists chain. split; [exact Ha|]. split; [exact Hl|exact Hk].
        + right. left. exact Hh.
        + right. right. exists r, m'. split; [lia|]. split; [exact Hmv|]. by split.
      - destruct Hor as [(chain & Ha & Hl & Hk)|[Hh|(r & m' & Hm' & Hmv & Hr & Hset)]].
        + left. exists chain. split; [exact Ha|]. split; [exact (lasting_more _ _ _ Hl)|exact Hk].
        + right. left. exact Hh.
        + right. right. exists r, m'. split; [lia|]. split; [exact Hmv|]. by split.
      - destruct Hor as [(chain & Ha & Hl & Hk)|[Hh|(r & m' & Hm' & Hmv & Hr & Hset)]].
        + right. left. exact Hk.
        + right. left. exact Hh.
        + right. right. exists r, m'. split; [lia|]. split; [exact Hmv|]. by split.
      - destruct Hor as [(chain & Ha & Hl & Hk)|[Hh|(r & m' & Hm' & Hmv & Hr & Hset)]].
        + destruct (Hk h Hf Ha) as [Hw [(r & Hr & Hset)|(ext & He & Hle & Hk')]].
          * right. right. exists r, m. split; [lia|]. rewrite E1, E2. split; [exact Hm|]. by split.
          * left. exists (ext ++ chain). rewrite Hw. split; [by apply agree_app|]. split; [by apply Forall_app|exact Hk'].
        + right. left. exact (Hh h).
        + right. right. exists r, m'. split; [lia|]. split; [exact Hmv|]. split; [exact Hr|exact (Hset h)].
    Qed.
    Lemma all_good T F ord h ps : path 0 = (h, map fresh ps) -> Forall (user F ord W) ps -> history T path -> (forall m, m <= T -> fits W (path m).1) ->
      forall m, m <= T -> Forall (guarded W) (path m).2 /\ exclusive (path m).2.
    Proof.
      intros H0 Hps Hp Hf m. induction m as [|m IH]; intros Hm.
      - rewrite H0. cbn. split.
        + apply Forall_map. eapply Forall_impl; [exact Hps|]. intros p Hu. exact (safe_user W F ord p Hu).
        + intros a b g g' l w Hab Ea Eb Hin. apply list_lookup_fmap_inv in Ea as (p & -> & _). by apply elem_of_nil in Hin.
      - destruct (IH ltac:(lia)) as [H1 H2]. destruct (Hp m ltac:(lia)) as [j Hj]. pose proof (Hf m ltac:(lia)) as Hfm.
        destruct (path m) as [h1 gs1], (path (S m)) as [h2 gs2]. cbn [fst snd] in *.
        split; [exact (guarded_step W j h1 gs1 h2 gs2 Hfm H1 Hj)|exact (exclusive_step j h1 gs1 h2 gs2 H2 Hj)].
    Qed.
    Lemma all_progress T F ord h ps : path 0 = (h, map fresh ps) -> Forall (user F ord W) ps -> history T path -> (forall m, m <= T -> fine (path m).1) ->
      progress 0 -> forall m, m <= T -> progress m.
    Proof.
      intros H0 Hps Hp Hf Hstart m. induction m as [|m IH]; intros Hm; [exact Hstart|].
      destruct (Hp m ltac:(lia)) as [j Hj]. destruct (all_good T F ord h ps H0 Hps Hp (fun m Hm => proj1 (Hf m Hm)) m ltac:(lia)) as [H1 H2].
      destruct (decide (j = i)) as [->|Hne].
      - exact (progress_own m (Hf m ltac:(lia)) Hj (IH ltac:(lia))).
      - exact (progress_other m j Hne (Hf m ltac:(lia)) H1 H2 Hj (IH ltac:(lia))).
    Qed.
    Lemma one_moment T F ord h ps p d l r g : path 0 = (h, map fresh ps) -> Forall (user F ord W) ps -> history T path -> (forall m, m <= T -> fine (path m).1) ->
      ps !! i = Some p -> h !! l = Some (OTs (Some d)) -> finds G [] [(l, OTs (Some d))] p ->
      (path T).2 !! i = Some g -> code g = Done r -> exists m, m < T /\ moves i (path m) (path (S m)) /\ G (path m).1 = Ok r.
    Proof.
      intros H0 Hps Hp Hf Ep El Hfi Eg Ec.
      assert (Hs : progress 0).
      { unfold progress. rewrite H0. cbn. rewrite list_lookup_fmap, Ep. cbn. eexists. split; [reflexivity|]. left. exists [(l, OTs (Some d))]. cbn.
        split; [apply agree_cons; split; [exact El|apply agree_nil]|]. split; [|exact Hfi]. apply Forall_cons. split; [left; by exists (Some d)|by apply Forall_nil]. }
      destruct (all_progress T F ord h ps H0 Hps Hp Hf Hs T (le_n T)) as (g' & Eg' & Hor). rewrite Eg in Eg'. injection Eg' as <-. rewrite Ec in Hor.
      destruct Hor as [(chain & _ & _ & [])|[[]|(r' & m & Hm & Hmv & Hr & Hset)]]. cbn in Hset. subst r'. exists m. by split.
    Qed.
  End Course.
End Find.

Lemma get_one_moment F ord W (path : nat -> heap * list (routine (option value))) T h ps i n l d key r g :
  path 0 = (h, map fresh ps) -> Forall (user F ord W) ps -> history T path ->
  (forall m, m <= T -> fits W (path m).1 /\ wrappers_under (split_on gt key) (path m).1) ->
  ps !! i = Some (w_get n l key) -> h !! l = Some (OTs (Some d)) -> (path T).2 !! i = Some g -> code g = Done r ->
  exists m, m < T /\ moves i (path m) (path (S m)) /\ dget n (path m).1 l key = Ok r.
Proof.
  intros H0 Hps Hp Hf Ep El Eg Ec.
  refine (one_moment W (split_on gt key) (fun h => dget n h l key) path i T F ord h ps (w_get n l key) d l r g H0 Hps Hp Hf Ep El _ Eg Ec).
  apply finds_get; [|done|reflexivity]. right. exists d. apply elem_of_list_singleton. reflexivity.
Qed.
Lemma typed_one_moment {A} F ord W (path : nat -> heap * list (routine (A * bool))) T h ps i n l d key (conv : value -> option A) zero r g :
  path 0 = (h, map fresh ps) -> Forall (user F ord W) ps -> history T path ->
  (forall m, m <= T -> fits W (path m).1 /\ wrappers_under (split_on gt key) (path m).1) ->
  ps !! i = Some (w_typed n l key (fun _ => conv) zero) -> h !! l = Some (OTs (Some d)) -> (path T).2 !! i = Some g -> code g = Done r ->
  exists m, m < T /\ moves i (path m) (path (S m)) /\ typed n (path m).1 l key conv zero = Ok r.
Proof.
  intros H0 Hps Hp Hf Ep El Eg Ec.
  refine (one_moment W (split_on gt key) (fun h => typed n h l key conv zero) path i T F ord h ps _ d l r g H0 Hps Hp Hf Ep El _ Eg Ec).
  apply (finds_typed W (split_on gt key) n key conv zero n (fun x Hx => Hx)); [|reflexivity]. right. exists d. apply elem_of_list_singleton. reflexivity.
Qed.
Lemma change_exclusive F ord W {A} (path : nat -> heap * list (routine A)) T h ps i g w k l d :
  path 0 = (h, map fresh ps) -> Forall (user F ord W) ps -> history T path -> (forall m, m <= T -> fits W (path m).1) ->
  (path T).2 !! i = Some g -> code g = Look w k -> W l = Some d -> w (path T).1 !! d <> (path T).1 !! d ->
  (true, l) ∈ held g /\ forall j g' b, j <> i -> (path T).2 !! j = Some g' -> (b, l) ∉ held g'.
Proof.
  intros H0 Hps Hp Hf Eg Ec El Hch. destruct (all_good W path T F ord h ps H0 Hps Hp Hf T (le_n T)) as [Hs He].
  pose proof (proj1 (Forall_lookup _ _) Hs _ _ Eg) as Hg. unfold guarded in Hg. rewrite Ec in Hg. cbn [safe] in Hg.
  destruct (Hg _ (Hf T (le_n T))) as [[_ H2] _]. assert (Hin : (true, l) ∈ held g).
  { destruct (decide (l ∈ writes (held g))) as [Hi|Hn]; [by apply writes_elem|]. by destruct (Hch (H2 l d El Hn)). }
  split; [exact Hin|]. intros j g' b Hj Ej. exact (He i j g g' l b ltac:(done) Eg Ej Hin).
Qed.

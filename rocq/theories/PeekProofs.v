(** * C125: proofs. *)
From Verif Require Import GoBase GoStrings GoStringsProofs LangModel DatasetModel DatasetSpec DatasetProofs DatasetProofs3 SnapModel TellModel WaitModel WaitSpec WaitProofs2 WaitProofs3 PeekSpec.
Local Open Scope nat_scope.

Definition writes (hs : list (bool * loc)) : list loc := omap (fun x : bool * loc => if x.1 then Some x.2 else None) hs.
Lemma writes_elem hs l : l ∈ writes hs <-> (true, l) ∈ hs.
Proof.
  unfold writes. rewrite elem_of_list_omap. split.
  - intros ([[] x] & Hin & E); [|discriminate E]. injection E as <-. exact Hin.
  - intros Hin. exists (true, l). split; [exact Hin|reflexivity].
Qed.
Lemma writes_drop_write hs l ws : writes hs = l :: ws -> writes (drop_one (true, l) hs) = ws.
Proof.
  induction hs as [|[[] x] hs IH]; intros E; [discriminate E| |].
  - cbn in E. injection E as -> E. cbn. destruct (decide ((true, l) = (true, l))) as [_|n]; [exact E|by destruct n].
  - cbn in E |- *. destruct (decide ((true, l) = (false, x))) as [e|_]; [discriminate e|]. exact (IH E).
Qed.
Lemma writes_drop_read hs l : writes (drop_one (false, l) hs) = writes hs.
Proof.
  induction hs as [|[[] x] hs IH]; [reflexivity| |].
  - cbn. destruct (decide ((false, l) = (true, x))) as [e|_]; [discriminate e|]. exact (f_equal (cons x) IH).
  - cbn. destruct (decide ((false, l) = (false, x))) as [e|_]; [reflexivity|]. exact IH.
Qed.
Lemma drop_one_sub x y hs : x ∈ drop_one y hs -> x ∈ hs.
Proof.
  induction hs as [|z hs IH]; cbn; [done|]. destruct (decide (y = z)); intros Hx; apply elem_of_cons; [by right|].
  apply elem_of_cons in Hx as [->|Hx]; [by left|right; exact (IH Hx)].
Qed.

(** ** Writers hold the lock of what they change *)
Definition spares_but (W : loc -> option loc) (ws : list loc) (h h' : heap) : Prop :=
  (forall l o, h !! l = Some (OTs o) -> h' !! l = Some (OTs o)) /\ forall l d, W l = Some d -> l ∉ ws -> h' !! d = h !! d.
Fixpoint safe {A} (W : loc -> option loc) (ws0 ws : list loc) (p : prog A) : Prop :=
  match p with
  | Done _ => ws = ws0
  | Crash | Short => True
  | Take w l k => safe W ws0 (if w then l :: ws else ws) k
  | Leave w l k => if w then exists ws', ws = l :: ws' /\ safe W ws0 ws' k else safe W ws0 ws k
  | Look w k => forall h, fits W h -> spares_but W ws h (w h) /\ safe W ws0 ws (k h)
  end.
Section Safe.
  Context (W : loc -> option loc).
  Lemma spares_refl ws h : spares_but W ws h h.
  Proof. split; [done|]. reflexivity. Qed.
  Lemma safe_bind {A C} (m : prog A) (f : A -> prog C) ws1 ws0 ws : safe W ws1 ws m -> (forall a, safe W ws0 ws1 (f a)) -> safe W ws0 ws (pbind m f).
  Proof.
    intros Hm Hf. revert ws Hm. induction m as [a| | |w l k IH|w l k IH|w k IH]; cbn; intros ws Hm.
    - subst ws. apply Hf.
    - done.
    - done.
    - exact (IH _ Hm).
    - destruct w; [|exact (IH _ Hm)]. destruct Hm as (ws' & -> & Hk). exists ws'. split; [reflexivity|]. exact (IH _ Hk).
    - intros h Hh. destruct (Hm h Hh) as [H1 H2]. split; [exact H1|]. exact (IH h _ H2).
  Qed.
  (** Programs that take no write lock and write nothing. *)
  Fixpoint meek {A} (m : prog A) : Prop :=
    match m with
    | Done _ | Crash | Short => True
    | Take w _ k | Leave w _ k => w = false /\ meek k
    | Look w k => (forall h, w h = h) /\ forall h, meek (k h)
    end.
  Lemma meek_safe {A} (m : prog A) ws : meek m -> safe W ws ws m.
  Proof.
    induction m as [a| | |w l k IH|w l k IH|w k IH]; cbn; try done.
    - intros [-> Hk]. exact (IH Hk).
    - intros [-> Hk]. exact (IH Hk).
    - intros [Hw Hk] h Hh. rewrite (Hw h). split; [apply spares_refl|]. exact (IH h (Hk h)).
  Qed.
  Lemma meek_bind {A C} (m : prog A) (f : A -> prog C) : meek m -> (forall a, meek (f a)) -> meek (pbind m f).
  Proof.
    intros Hm Hf. induction m as [a| | |w l k IH|w l k IH|w k IH]; cbn in *; try done; try apply Hf.
    - destruct Hm as [-> Hk]. split; [reflexivity|exact (IH Hk)].
    - destruct Hm as [-> Hk]. split; [reflexivity|exact (IH Hk)].
    - destruct Hm as [Hw Hk]. split; [exact Hw|]. intros h. exact (IH h (Hk h)).
  Qed.
  Lemma meek_deferred {A} l (m : prog A) : meek m -> meek (deferred l m).
  Proof.
    intros Hm. induction m as [a| | |w x k IH|w x k IH|w k IH]; cbn in *; try done.
    - destruct Hm as [-> Hk]. split; [reflexivity|exact (IH Hk)].
    - destruct Hm as [-> Hk]. split; [reflexivity|exact (IH Hk)].
    - destruct Hm as [Hw Hk]. split; [exact Hw|]. intros h. exact (IH h (Hk h)).
  Qed.
  Lemma meek_reading {A} l (m : prog A) : meek m -> meek (reading l m).
  Proof. intros Hm. split; [reflexivity|]. by apply meek_deferred. Qed.
  Lemma meek_holding {A} l (m : prog A) : meek m -> meek (holding false l m).
  Proof. intros Hm. split; [reflexivity|]. apply meek_bind; [exact Hm|]. intros a. split; [reflexivity|exact I]. Qed.
  Lemma meek_caught {A} (m : prog A) d : meek m -> meek (caught m d).
  Proof.
    intros Hm. induction m as [a| | |w x k IH|w x k IH|w k IH]; cbn in *; try done.
    - destruct Hm as [-> Hk]. split; [reflexivity|exact (IH Hk)].
    - destruct Hm as [-> Hk]. split; [reflexivity|exact (IH Hk)].
    - destruct Hm as [Hw Hk]. split; [exact Hw|]. intros h. exact (IH h (Hk h)).
  Qed.
  Lemma meek_given {A} (r : outcome A) : meek (given r).
  Proof. by destruct r. Qed.
  Lemma meek_inspect {A} c (f : heap -> outcome A) : meek (w_inspect c f).
  Proof.
    split; [reflexivity|]. intros h. destruct (h !! c) as [[m|d|xs|xs]|]; try apply meek_given.
    apply meek_reading. split; [reflexivity|]. intros h1. apply meek_given.
  Qed.
  Lemma meek_brief {A} c (f : heap -> outcome A) : meek (w_brief c f).
  Proof.
    split; [reflexivity|]. intros h. destruct (h !! c) as [[m|d|xs|xs]|]; try apply meek_given.
    apply meek_holding. split; [reflexivity|]. intros h1. apply meek_given.
  Qed.
  Lemma meek_get n : forall l key, meek (w_get n l key).
  Proof.
    induction n as [|n IH]; intros l key; [exact I|]. split; [reflexivity|]. intros h.
    destruct (h !! l) as [[m|[d|]|xs|xs]|]; try exact I.
    - destruct (split_on gt key) as [|x0 [|x1 rest]]; try exact I. destruct (m !! x0) as [v|]; [|exact I].
      destruct (as_dataset h v) as [d|]; [apply IH|]. destruct (as_collection h v) as [c|]; [|exact I]. destruct (atoi x1) as [i|]; [|exact I].
      apply meek_bind; [apply meek_inspect|]. intros [[e|]|]; try exact I. destruct rest; [exact I|apply IH].
    - apply meek_reading, IH.
    - apply meek_reading. exact I.
  Qed.
  Lemma meek_under {A} (f : loc -> prog A) : (forall l, meek (f l)) -> forall n l, meek (w_under n l f).
  Proof.
    intros Hf n. induction n as [|n IH]; intros l; [exact I|]. split; [reflexivity|]. intros h.
    destruct (h !! l) as [[m|[d|]|xs|xs]|]; try exact I; [apply Hf|apply meek_reading, IH|apply meek_reading; exact I].
  Qed.
  Lemma meek_typed {A} n l key conv (zero : A) : meek (w_typed n l key conv zero).
  Proof. apply meek_under. intros l'. apply meek_bind; [apply meek_get|]. intros r. split; [reflexivity|]. intros h. exact I. Qed.
  Lemma meek_data n c key : meek (w_data n c key).
  Proof.
    apply meek_bind; [apply meek_brief|]. intros i. induction i as [|i IH]; [exact I|]. cbn [w_search].
    apply meek_bind; [apply meek_brief|]. intros [d|]; [|exact I]. apply meek_bind; [apply meek_get|]. intros [v|]; [exact I|exact IH].
  Qed.
  Section Ord.
    Context (F : golib) (ord : heap -> gmap bytes value -> list (bytes * value)).
    Lemma meek_entries f es : (forall l, meek (f l)) -> meek (w_entries f es).
    Proof.
      intros Hf. induction es as [|[k v] es IH]; [exact I|]. cbn [w_entries]. apply meek_bind; [destruct v; try exact I; apply Hf|].
      intros t. apply meek_bind; [exact IH|]. intros ts. exact I.
    Qed.
    Lemma meek_elements f xs : (forall l, meek (f l)) -> meek (w_elements f xs).
    Proof.
      intros Hf. induction xs as [|[x|] xs IH]; [exact I| |exact I]. cbn [w_elements]. apply meek_bind; [apply Hf|].
      intros t. apply meek_bind; [exact IH|]. intros ts. exact I.
    Qed.
    Lemma meek_clone n : forall l, meek (w_clone ord n l).
    Proof.
      induction n as [|n IH]; intros l; [exact I|]. split; [reflexivity|]. intros h. destruct (h !! l) as [[m|[d|]|xs|xs]|]; try exact I.
      - apply meek_bind; [apply meek_entries, IH|]. intros t. exact I.
      - apply meek_holding, meek_bind; [apply IH|]. intros t. exact I.
      - apply meek_holding. exact I.
      - apply meek_bind; [apply meek_elements, IH|]. intros t. exact I.
      - apply meek_bind; [apply meek_elements, IH|]. intros t. exact I.
    Qed.
    Lemma meek_value f go v : (forall go l, meek (f go l)) -> meek (w_value F f go v).
    Proof. intros Hf. destruct v; try exact I. apply meek_caught, Hf. Qed.
    Lemma meek_words f es : (forall v, meek (f v)) -> meek (w_words f es).
    Proof.
      intros Hf. induction es as [|[k v] es IH]; [exact I|]. cbn [w_words]. apply meek_bind; [apply Hf|]. intros t.
      apply meek_bind; [exact IH|]. intros ts. exact I.
    Qed.
    Lemma meek_items f xs : (forall v, meek (f v)) -> forall i, meek (w_items f i xs).
    Proof.
      intros Hf. induction xs as [|x xs IH]; intros i; [exact I|]. cbn [w_items]. apply meek_bind; [apply Hf|]. intros t.
      apply meek_bind; [apply IH|]. intros ts. exact I.
    Qed.
    Lemma meek_show n : forall go l, meek (w_show F ord n go l).
    Proof.
      induction n as [|n IH]; intros go l; [exact I|]. split; [reflexivity|]. intros h. destruct (h !! l) as [[m|[d|]|xs|xs]|]; try exact I.
      - apply meek_bind; [|intros; exact I]. apply meek_words. intros v. apply meek_value, IH.
      - apply meek_reading, IH.
      - apply meek_reading. exact I.
      - apply meek_bind; [|intros; exact I]. apply meek_items. intros v. apply meek_value, IH.
      - apply meek_holding. split; [reflexivity|]. intros h1.
        apply meek_bind; [|intros; exact I]. apply meek_items. intros v. apply meek_value, IH.
    Qed.
    Lemma meek_string n l key : meek (w_string F ord n l key).
    Proof.
      apply meek_under. intros l'. apply meek_bind; [apply meek_get|]. intros r.
      assert (Hv : forall v, meek (t <~~ w_value F (w_show F ord n) false v; Done (t, true))).
      { intros v. apply meek_bind; [|intros; exact I]. apply meek_value. intros. apply meek_show. }
      destruct r as [v|]; [|exact I]. destruct v; try apply Hv. exact I.
    Qed.
  End Ord.
  Lemma safe_holding {A} l (m : prog A) ws : safe W (l :: ws) (l :: ws) m -> safe W ws ws (holding true l m).
  Proof. intros Hm. cbn. apply (safe_bind m _ (l :: ws)); [exact Hm|]. intros a. exists ws. split; reflexivity. Qed.
  Lemma safe_change {A} (f : heap -> outcome (heap * A)) ws : (forall h h1 a, fits W h -> f h = Ok (h1, a) -> spares_but W ws h h1) -> safe W ws ws (change f).
  Proof.
    intros Hf h Hh. destruct (f h) as [[h1 a]| |] eqn:E; cbn.
    - split; [exact (Hf h h1 a Hh E)|reflexivity].
    - split; [apply spares_refl|exact I].
    - split; [apply spares_refl|exact I].
  Qed.
  Lemma safe_modify {A} c (f : heap -> outcome (heap * A)) ws : (forall ws h h1 a, fits W h -> f h = Ok (h1, a) -> spares_but W ws h h1) -> safe W ws ws (w_modify c f).
  Proof.
    intros Hf h Hh. split; [apply spares_refl|]. destruct (h !! c) as [[m|d|xs|xs]|]; try (apply safe_change, Hf).
    apply safe_holding, safe_change, Hf.
  Qed.
  Lemma spares_elements h c xs ws : fits W h -> spares_but W ws h (set_elements h c xs).
  Proof.
    intros (_ & Hw & _). unfold set_elements. destruct (h !! c) as [[m|d|ys|ys]|] eqn:Ec; try apply spares_refl.
    - split.
      + intros l o E. destruct (decide (c = l)) as [<-|n]; [congruence|]. by rewrite lookup_insert_ne by exact n.
      + intros l d E _. destruct (Hw l d E) as [_ [Hd|[m Hd]]]; (destruct (decide (c = d)) as [<-|n]; [congruence|]; by rewrite lookup_insert_ne by exact n).
    - split.
      + intros l o E. destruct (decide (c = l)) as [<-|n]; [congruence|]. by rewrite lookup_insert_ne by exact n.
      + intros l d E _. destruct (Hw l d E) as [_ [Hd|[m Hd]]]; (destruct (decide (c = d)) as [<-|n]; [congruence|]; by rewrite lookup_insert_ne by exact n).
  Qed.
  Lemma spares_insert h d m m' ws : fits W h -> h !! d = Some (ODs m) -> (forall l, W l = Some d -> l ∈ ws) -> spares_but W ws h (<[d := ODs m']> h).
  Proof.
    intros Hf Ed Hin. split.
    - intros l o E. destruct (decide (d = l)) as [<-|n]; [congruence|]. by rewrite lookup_insert_ne by exact n.
    - intros l d' E Hn. destruct (decide (d = d')) as [<-|n]; [by destruct (Hn (Hin l E))|]. by rewrite lookup_insert_ne by exact n.
  Qed.
  Lemma safe_alter f n : forall l ws, (forall x, W x = Some l -> x ∈ ws) -> safe W ws ws (w_alter n l f).
  Proof.
    induction n as [|n IH]; intros l ws Hin; [exact I|]. intros h Hh. split; [apply spares_refl|].
    destruct (h !! l) as [[m|[d|]|xs|xs]|] eqn:El; try exact I.
    - apply safe_change. intros h1 h2 a Hh1 E. destruct (h1 !! l) as [[m1|?|?|?]|] eqn:E1; try discriminate E. injection E as <- _.
      exact (spares_insert h1 l m1 _ ws Hh1 E1 Hin).
    - apply safe_holding, IH. intros x Ex. destruct Hh as (H1 & _ & H3). destruct (H1 l d El) as [E _].
      rewrite (H3 x l d Ex E). apply elem_of_cons. by left.
  Qed.

  Context (F : golib) (ord : heap -> gmap bytes value -> list (bytes * value)).
  Lemma safe_polite C (m : prog C) : polite F ord W C m -> safe W [] [] m.
  Proof.
    intros Hm. destruct Hm as [n l key|n l key|C n l key conv zero|n l key v Ho|n l key Ho|n l|n go l|n c key|c|c i|c d|c d|c|c];
      try (apply meek_safe; first [apply meek_get|apply meek_string|apply meek_typed|apply meek_clone|apply meek_show|apply meek_data|apply meek_inspect]).
    - apply safe_alter. intros x E. by destruct (Ho x).
    - apply safe_alter. intros x E. by destruct (Ho x).
    - apply safe_modify. intros ws h h1 a Hh E. unfold cunshift in E. destruct (elements h c); [|discriminate E]. cbn in E. injection E as <- _. by apply spares_elements.
    - apply safe_modify. intros ws h h1 a Hh E. unfold cpush in E. destruct (elements h c); [|discriminate E]. cbn in E. injection E as <- _. by apply spares_elements.
    - apply safe_modify. intros ws h h1 a Hh E. unfold cshift in E. destruct (elements h c); [|discriminate E]. destruct (l !! 0); [|discriminate E]. injection E as <- _. by apply spares_elements.
    - apply safe_modify. intros ws h h1 a Hh E. unfold cpop in E. destruct (elements h c); [|discriminate E].
      case_bool_decide; [discriminate E|]. destruct (l !! _); [|discriminate E]. injection E as <- _. by apply spares_elements.
  Qed.
  Lemma safe_user {A} (p : prog A) : user F ord W p -> safe W [] [] p.
  Proof.
    induction 1 as [a| | |w k Hw Hk IH|m Hm|C m f Hm Hf IH]; try done.
    - intros h Hh. split; [|exact (IH h)]. destruct (Hw h Hh) as [H1 H2]. split; [exact H1|]. intros l d E _. exact (H2 l d E).
    - exact (safe_polite A m Hm).
    - apply (safe_bind m f []); [exact (safe_polite C m Hm)|exact IH].
  Qed.
End Safe.

(** ** Nobody writes what another one reads *)
Section Exclusive.
  Context {A : Type}.
  Definition exclusive (gs : list (routine A)) : Prop :=
    forall i j g g' l w, i <> j -> gs !! i = Some g -> gs !! j = Some g' -> (true, l) ∈ held g -> (w, l) ∉ held g'.
  Lemma exclusive_insert gs i g g1 : exclusive gs -> gs !! i = Some g -> 
    (forall w l, (w, l) ∈ held g1 -> (w, l) ∈ held g \/ (forall j g', j <> i -> gs !! j = Some g' -> (true, l) ∉ held g' /\ (w = true -> (false, l) ∉ held g'))) ->
    exclusive (<[i := g1]> gs).
  Proof.
    intros He Ei Hnew a b ga gb l w Hne Ea Eb Ha Hb.
    destruct (decide (a = i)) as [->|Hai]; [|rewrite list_lookup_insert_ne in Ea by done].
    - rewrite list_lookup_insert in Ea by exact (lookup_lt_Some _ _ _ Ei). injection Ea as <-.
      rewrite list_lookup_insert_ne in Eb by done. destruct (Hnew true l Ha) as [Ho|Ho].
      + exact (He i b g gb l w Hne Ei Eb Ho Hb).
      + destruct (Ho b gb ltac:(done) Eb) as [H1 H2]. destruct w; [exact (H1 Hb)|exact (H2 eq_refl Hb)].
    - destruct (decide (b = i)) as [->|Hbi]; [|rewrite list_lookup_insert_ne in Eb by done].
      + rewrite list_lookup_insert in Eb by exact (lookup_lt_Some _ _ _ Ei). injection Eb as <-.
        destruct (Hnew w l Hb) as [Ho|Ho].
        * exact (He a i ga g l w Hne Ea Ei Ha Ho).
        * destruct (Ho a ga Hai Ea) as [H1 _]. exact (H1 Ha).
      + exact (He a b ga gb l w Hne Ea Eb Ha Hb).
  Qed.
  Lemma exclusive_step i h gs h' gs' : exclusive gs -> moves i (h, gs) (h', gs') -> exclusive gs'.
  Proof.
    intros He Hm. inversion Hm as [? ? hs b l k E Hb|? ? hs l k E|? ? hs l k E Ht|? ? hs b w l k E Hin|? ? hs b w k E]; subst;
      refine (exclusive_insert gs i _ _ He E _); cbn; intros w0 l0 Hin0.
    - apply elem_of_cons in Hin0 as [[= -> ->]|Hin0]; [right|by left]. intros j g' Hj Ej. split; [|discriminate].
      intros Hg. apply Hb. exists g'. split; [exact (elem_of_list_lookup_2 _ _ _ Ej)|by left].
    - by left.
    - apply elem_of_cons in Hin0 as [[= -> ->]|Hin0]; [right|by left]. intros j g' Hj Ej.
      split; [intros Hg|intros _ Hg]; apply Ht; eexists g', _; (split; [exact (elem_of_list_lookup_2 _ _ _ Ej)|exact Hg]).
    - left. exact (drop_one_sub _ _ _ Hin0).
    - by left.
  Qed.
  Definition guarded (W : loc -> option loc) (g : routine A) : Prop := safe W [] (writes (held g)) (code g).
  Lemma guarded_step W i h gs h' gs' : fits W h -> Forall (guarded W) gs -> moves i (h, gs) (h', gs') -> Forall (guarded W) gs'.
  Proof.
    intros Hh Hs Hm. inversion Hm as [? ? hs b l k E Hb|? ? hs l k E|? ? hs l k E Ht|? ? hs b w l k E Hin|? ? hs b w k E]; subst;
      pose proof (proj1 (Forall_lookup _ _) Hs _ _ E) as Hg; unfold guarded in Hg; cbn [held code safe] in Hg; apply Forall_insert; try exact Hs; unfold guarded; cbn [held code].
    - exact Hg.
    - exact Hg.
    - exact Hg.
    - destruct w.
      + destruct Hg as (ws' & Ew & Hk). rewrite (writes_drop_write hs l ws' Ew). exact Hk.
      + rewrite writes_drop_read. exact Hg.
    - exact (proj2 (Hg h Hh)).
  Qed.
  (** A step of another goroutine changes nothing inside a wrapper whose lock is held here. *)
  Lemma step_spares W i j h gs h' gs' g : fits W h -> Forall (guarded W) gs -> exclusive gs -> moves i (h, gs) (h', gs') -> i <> j -> gs !! j = Some g ->
    (forall l o, h !! l = Some (OTs o) -> h' !! l = Some (OTs o)) /\ forall l d w, W l = Some d -> (w, l) ∈ held g -> h' !! d = h !! d.
  Proof.
    intros Hh Hs He Hm Hij Ej. inversion Hm as [? ? hs b l k E Hb|? ? hs l k E|? ? hs l k E Ht|? ? hs b w l k E Hin|? ? hs b w k E]; subst;
      try (split; [done|reflexivity]).
    pose proof (proj1 (Forall_lookup _ _) Hs _ _ E) as Hg. unfold guarded in Hg. cbn [held code safe] in Hg. destruct (Hg h Hh) as [[H1 H2] _].
    split; [exact H1|]. intros l d w' El Hin. apply (H2 l d El). rewrite writes_elem. intros Hw. exact (He i j _ g l w' Hij E Ej Hw Hin).
  Qed.
End Exclusive.

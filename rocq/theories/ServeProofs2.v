(** * Proofs for C127: goroutines that execute templates wait, but not in circles. *)
From Verif Require Import GoBase GoStrings LangModel DatasetModel DatasetSpec DatasetProofs3 TemplateModel SnapModel TellModel WaitModel WaitSpec WaitProofs WaitProofs2 WaitProofs3 ServeModel ServeSpec ServeProofs.
Local Open Scope nat_scope.

Lemma under_nil rank l : under rank [] l. Proof. intros x Hx. by apply elem_of_nil in Hx. Qed.

Section Orderly.
  Context (F : golib) (ord : heap -> gmap bytes value -> list (bytes * value)) (Hord : order_ok ord) (rank : loc -> nat).
  Definition orderly (K : list (bool * loc) -> Prop) A (p : prog A) : Prop := tidy rank (stay [] (fun _ => True)) K [] p.
  Lemma orderly_bind K A C (m : prog A) (f : A -> prog C) : orderly K A m -> (forall a, orderly K C (f a)) -> orderly K C (pbind m f).
  Proof. intros Hm Hf. refine (tidy_bind _ _ _ _ _ _ _ Hm _). intros a hs' [-> _]. apply Hf. Qed.
  Lemma orderly_value K n v : orderly K _ (w_value F (w_show F ord n) false v).
  Proof using Hord. apply never_weak, tidy_value. intros y _. apply tidy_show; [exact Hord|apply under_nil]. Qed.
  Lemma orderly_execute langs th n t data : orderly anyway _ (s_execute F ord langs th n t data).
  Proof using Hord.
    apply (closed_execute F ord langs th (orderly anyway)).
    - apply orderly_bind.
    - intros A a. by split.
    - intros A. exact I.
    - intros A. exact I.
    - intros A f h _. by split.
    - intros n' l key. exact (tidy_method rank F ord Hord _ _ (is_get F ord n' l key)).
    - intros c. exact (tidy_method rank F ord Hord _ _ (is_count F ord c)).
    - intros c i. exact (tidy_method rank F ord Hord _ _ (is_elem F ord c i)).
    - intros n' l z. exact (tidy_method rank F ord Hord _ _ (is_set F ord n' l _ _)).
    - intros n' go l. exact (tidy_method rank F ord Hord _ _ (is_show F ord n' go l)).
    - apply orderly_value.
  Qed.
  Lemma orderly_worker {A} (p : prog A) : worker F ord p -> orderly anyway A p.
  Proof using Hord.
    induction 1 as [a| | |w k Hk IH|C m f Hm Hf IH|langs th n t data f Hf IH].
    - by split.
    - exact I.
    - exact I.
    - intros h Hh. exact (IH h).
    - apply orderly_bind; [exact (tidy_method rank F ord Hord C m Hm)|exact IH].
    - apply orderly_bind; [apply orderly_execute|exact IH].
  Qed.
End Orderly.

Section Workers.
  Context (F : golib) (ord : heap -> gmap bytes value -> list (bytes * value)) (Hord : order_ok ord).
  Context {A : Type} (rank : loc -> nat) (path : nat -> heap * list (routine A)) (T : nat) (h : heap) (ps : list (prog A)).
  Context (H0 : path 0 = (h, map fresh ps)) (Hps : Forall (worker F ord) ps) (Hp : history T path).
  Context (Hr : forall m, m <= T -> ranked rank (path m).1).
  Lemma workers_sound : Forall (sound rank) (path T).2.
  Proof using All.
    refine (sound_history rank T path Hp Hr _ T (le_n T)). rewrite H0. cbn. apply Forall_map. eapply Forall_impl; [exact Hps|].
    intros p Hc. split; [|discriminate]. exact (orderly_worker F ord Hord rank p Hc).
  Qed.
  Lemma workers_circle i : ~ tc (waits (path T).2) i i.
  Proof using All. exact (no_circle rank _ i workers_sound). Qed.
  Lemma workers_go_on i g : no_dead_holder (path T).2 -> (path T).2 !! i = Some g -> ~ over g ->
    exists j, rtc (waits (path T).2) i j /\ can_move (path T) j.
  Proof using All.
    intros Hd Ei Ho. pose proof workers_sound as Hs. destruct (path T) as [h' gs]. cbn in *.
    exact (goes_on rank h' gs Hs Hd (S (level rank g)) i g (Nat.lt_succ_diag_r _) Ei Ho).
  Qed.
  Lemma over_dec (g : routine A) : over g \/ ~ over g.
  Proof. unfold over. destruct (code g); try (left; exact I); right; exact id. Qed.
  Lemma workers_return : no_dead_holder (path T).2 -> (forall i, ~ can_move (path T) i) -> Forall over (path T).2.
  Proof using All.
    intros Hd Hs. apply Forall_lookup. intros i g Ei. destruct (over_dec g) as [Ho|Ho]; [exact Ho|].
    destruct (workers_go_on i g Hd Ei Ho) as (j & _ & Hj). by destruct (Hs j).
  Qed.
End Workers.

(** ** Servers: the kinds of the objects stay, and the order of the data *)
Definition steady (h0 h : heap) : Prop := forall l,
  match h0 !! l with
  | Some (ODs _) => exists m, h !! l = Some (ODs m)
  | o => h !! l = o
  end.
Definition fine (rank : loc -> nat) (h0 h : heap) : Prop := ranked rank h /\ steady h0 h.
Lemma steady_refl h : steady h h.
Proof. intros l. destruct (h !! l) as [[m|d|xs|xs]|]; [by exists m|done..]. Qed.
Lemma steady_put h0 h l m m' : steady h0 h -> h !! l = Some (ODs m) -> steady h0 (<[l := ODs m']> h).
Proof.
  intros Hs El x. specialize (Hs x). destruct (decide (x = l)) as [->|n].
  - rewrite lookup_insert. rewrite El in Hs. destruct (h0 !! l) as [[a|d|xs|xs]|]; try discriminate Hs. by exists m'.
  - rewrite lookup_insert_ne by done. exact Hs.
Qed.
(** What is written keeps [fine]. *)
Fixpoint faithful {A} (rank : loc -> nat) (h0 : heap) (p : prog A) : Prop :=
  match p with
  | Done _ | Crash | Short => True
  | Take _ _ k | Leave _ _ k => faithful rank h0 k
  | Look w k => (forall h, fine rank h0 h -> fine rank h0 (w h)) /\ forall h, faithful rank h0 (k h)
  end.
Lemma faithful_bind {A C} rank h0 (m : prog A) (f : A -> prog C) : faithful rank h0 m -> (forall a, faithful rank h0 (f a)) -> faithful rank h0 (pbind m f).
Proof.
  intros Hm Hf. induction m as [a| | |w l k IH|w l k IH|w k IH]; cbn in *; try done; try apply Hf; try exact (IH Hm).
  destruct Hm as [Hw Hk]. split; [exact Hw|]. intros h. exact (IH h (Hk h)).
Qed.
Lemma mild_faithful {A} rank h0 (m : prog A) : mild m -> faithful rank h0 m.
Proof.
  induction m as [a| | |w l k IH|w l k IH|w k IH]; cbn; try done. intros [Hw Hk]. split; [|intros h; exact (IH h (Hk h))].
  intros h. by rewrite (Hw h).
Qed.
Definition removes (f : gmap bytes value -> gmap bytes value) : Prop := forall m k y, f m !! k = Some (VRef y) -> m !! k = Some (VRef y).
Lemma ranked_put rank h l m m' : ranked rank h -> h !! l = Some (ODs m) -> (forall k y, m' !! k = Some (VRef y) -> m !! k = Some (VRef y)) ->
  ranked rank (<[l := ODs m']> h).
Proof.
  intros Hr El Hk x y Hc. apply Hr. inversion Hc as [? mm k ? E1 E2|? ? E|? xs ? [E|E] Hin]; subst.
  - destruct (decide (x = l)) as [->|n].
    + rewrite lookup_insert in E1. injection E1 as <-. exact (child_ds h l m k y El (Hk k y E2)).
    + rewrite lookup_insert_ne in E1 by done. exact (child_ds h x mm k y E1 E2).
  - destruct (decide (x = l)) as [->|n]; [by rewrite lookup_insert in E|]. rewrite lookup_insert_ne in E by done. by constructor.
  - destruct (decide (x = l)) as [->|n]; [by rewrite lookup_insert in E|]. rewrite lookup_insert_ne in E by done. apply (child_coll h x xs y); [by left|exact Hin].
  - destruct (decide (x = l)) as [->|n]; [by rewrite lookup_insert in E|]. rewrite lookup_insert_ne in E by done. apply (child_coll h x xs y); [by right|exact Hin].
Qed.
Lemma faithful_alter rank h0 f n : removes f -> forall l, faithful rank h0 (w_alter n l f).
Proof.
  intros Hf. induction n as [|n IH]; intros l; [exact I|]. split; [done|]. intros h. destruct (h !! l) as [[m|[d|]|xs|xs]|] eqn:El; try exact I.
  - split.
    + intros h1 [Hr Hs]. destruct (h1 !! l) as [[m1|d|xs|xs]|] eqn:E1; try (split; assumption). split.
      * exact (ranked_put rank h1 l m1 (f m1) Hr E1 (Hf m1)).
      * exact (steady_put h0 h1 l m1 (f m1) Hs E1).
    + intros h1. destruct (h1 !! l) as [[m1|d|xs|xs]|]; exact I.
  - cbn [holding faithful]. apply faithful_bind; [apply IH|]. intros u. exact I.
Qed.
Lemma removes_set key v : (forall y, v <> VRef y) -> removes (fun m => <[key := v]> m).
Proof. intros Hv m k y. destruct (decide (key = k)) as [<-|n]; [rewrite lookup_insert; intros [= E]; by destruct (Hv y)|by rewrite lookup_insert_ne]. Qed.
Lemma removes_del key : removes (fun m => delete key m).
Proof. intros m k y E. by apply lookup_delete_Some in E as [_ E]. Qed.

(** Like [tidy], when the data are fine. *)
Fixpoint neat {A} (rank : loc -> nat) (h0 : heap) (Q : A -> list (bool * loc) -> Prop) (K : list (bool * loc) -> Prop) (hs : list (bool * loc)) (p : prog A) : Prop :=
  match p with
  | Done a => Q a hs
  | Crash => K hs
  | Short => True
  | Take w l k => under rank hs l /\ neat rank h0 Q K ((w, l) :: hs) k
  | Leave w l k => exists hs', hs = (w, l) :: hs' /\ neat rank h0 Q K hs' k
  | Look w k => forall h, fine rank h0 h -> neat rank h0 Q K hs (k h)
  end.
Section Neat.
  Context (rank : loc -> nat) (h0 : heap).
  Notation neat := (neat rank h0).
  Lemma tidy_neat {A} (Q : A -> _ -> Prop) K p : forall hs, tidy rank Q K hs p -> neat Q K hs p.
  Proof.
    induction p as [a| | |w l k IH|w l k IH|w k IH]; cbn; intros hs; try done.
    - intros [Hu Hk]. split; [exact Hu|exact (IH _ Hk)].
    - intros (hs' & -> & Hk). exists hs'. split; [done|exact (IH _ Hk)].
    - intros Hk h [Hh _]. exact (IH h _ (Hk h Hh)).
  Qed.
  Lemma neat_bind {A C} (Q' : A -> _ -> Prop) (Q : C -> _ -> Prop) K m f hs :
    neat Q' K hs m -> (forall a hs', Q' a hs' -> neat Q K hs' (f a)) -> neat Q K hs (pbind m f).
  Proof.
    intros Hm Hf. revert hs Hm. induction m as [a| | |w l k IH|w l k IH|w k IH]; cbn; intros hs; try done.
    - apply Hf.
    - intros [Hu Hk]. split; [exact Hu|]. exact (IH _ Hk).
    - intros (hs' & -> & Hk). exists hs'. split; [reflexivity|]. exact (IH _ Hk).
    - intros Hk h Hh. exact (IH h _ (Hk h Hh)).
  Qed.
  Context (Hf : filled h0).
  Lemma neat_alter f n : forall l hs, under rank hs l -> dataset_at h0 l \/ hs = [] -> neat (stay hs (fun _ => True)) (eq []) hs (w_alter n l f).
  Proof using Hf.
    induction n as [|n IH]; intros l hs Hu Hd; [exact I|]. intros h [Hr Hs]. pose proof (Hs l) as Hl.
    assert (Hcr : ~ dataset_at h l -> neat (stay hs (fun _ : unit => True)) (eq []) hs Crash).
    { intros Hn. destruct Hd as [Hd| ->]; [|reflexivity]. destruct Hn. unfold dataset_at in *. destruct (h0 !! l) as [[m|d|xs|xs]|]; try done.
      - destruct Hl as [m' ->]. exact I.
      - by rewrite Hl. }
    destruct (h !! l) as [[m|[d|]|xs|xs]|] eqn:El; try (apply Hcr; unfold dataset_at; rewrite El; exact id).
    - intros h1 [Hr1 Hs1]. pose proof (Hs1 l) as Hl1. destruct (h0 !! l) as [[m0|d0|xs0|xs0]|]; try discriminate Hl.
      destruct Hl1 as [m1 ->]. by split.
    - assert (E0 : h0 !! l = Some (OTs (Some d))) by (destruct (h0 !! l) as [[m0|d0|xs0|xs0]|]; [destruct Hl as [? [=]]|symmetry; exact Hl..]).
      destruct (Hf l _ E0) as (d' & [= <-] & Hd'). split; [exact Hu|].
      refine (neat_bind _ _ _ _ _ _ (IH d _ _ (or_introl Hd')) _).
      + exact (under_take rank true hs l d h Hr Hu (child_ts h l d El)).
      + intros u hs' [-> _]. exists hs. split; [done|]. by split.
    - assert (E0 : h0 !! l = Some (OTs None)) by (destruct (h0 !! l) as [[m0|d0|xs0|xs0]|]; [destruct Hl as [? [=]]|symmetry; exact Hl..]).
      destruct (Hf l _ E0) as (d' & [=] & _).
  Qed.
End Neat.

Section Served.
  Context (F : golib) (ord : heap -> gmap bytes value -> list (bytes * value)) (Hord : order_ok ord) (rank : loc -> nat) (h0 : heap) (Hf : filled h0).
  Definition good A (p : prog A) : Prop := faithful rank h0 p /\ neat rank h0 (stay [] (fun _ => True)) (eq []) [] p.
  Lemma good_bind A C (m : prog A) (f : A -> prog C) : good A m -> (forall a, good C (f a)) -> good C (pbind m f).
  Proof.
    intros [Hm1 Hm2] Hf'. split.
    - apply faithful_bind; [exact Hm1|]. intros a. apply Hf'.
    - refine (neat_bind _ _ _ _ _ _ _ _ Hm2 _). intros a hs' [-> _]. apply Hf'.
  Qed.
  Lemma good_mild A (m : prog A) Q : mild m -> tidy rank (stay [] Q) (eq []) [] m -> good A m.
  Proof.
    intros Hm Ht. split; [exact (mild_faithful rank h0 m Hm)|]. apply tidy_neat. revert Ht. apply tidy_weak; [|done]. intros a hs' [-> _]. by split.
  Qed.
  Lemma mild_given A (r : outcome A) : mild (given r). Proof. by destruct r. Qed.
  Lemma mild_inspect A c (f : heap -> outcome A) : mild (w_inspect c f).
  Proof.
    split; [done|]. intros h. destruct (h !! c) as [[m|d|xs|xs]|]; try apply mild_given. cbn. split; [done|]. intros h1. apply mild_deferred, mild_given.
  Qed.
  Lemma mild_get n : forall l key, mild (w_get n l key).
  Proof.
    induction n as [|n IH]; intros l key; [exact I|]. split; [done|]. intros h. cbn zeta beta. destruct (h !! l) as [[m|[d|]|xs|xs]|]; try exact I.
    - destruct (split_on gt key) as [|x0 [|x1 rest]]; try exact I. destruct (m !! x0) as [v|]; [|exact I].
      destruct (as_dataset h v); [apply IH|]. destruct (as_collection h v); [|exact I]. destruct (atoi x1); [|exact I].
      apply mild_bind; [apply mild_inspect|]. intros [[e|]|]; try exact I. destruct rest; [exact I|apply IH].
    - cbn [reading mild]. apply mild_deferred, IH.
  Qed.
  Lemma mild_under A (f : loc -> prog A) n : (forall l, mild (f l)) -> forall l, mild (w_under n l f).
  Proof.
    intros Hm. induction n as [|n IH]; intros l; [exact I|]. split; [done|]. intros h. destruct (h !! l) as [[m|[d|]|xs|xs]|]; try exact I.
    - apply Hm.
    - cbn [reading mild]. apply mild_deferred, IH.
  Qed.
  Lemma good_harmless C (m : prog C) : harmless F ord C m -> good C m.
  Proof using Hord Hf.
    intros Hm. destruct Hm.
    - exact (good_mild _ _ _ (mild_get n l key) (tidy_get rank n l key [] (under_nil rank l))).
    - refine (good_mild _ _ _ _ (tidy_string rank F ord Hord n l key [] (under_nil rank l))). apply mild_under. intros l'.
      apply mild_bind; [apply mild_get|]. intros [v|]; [|exact I]. destruct v; try exact I.
      apply mild_bind; [|intros; exact I]. apply mild_value, mild_show.
    - refine (good_mild _ _ _ _ (tidy_typed rank n l key conv zero [] (under_nil rank l))). apply mild_under. intros l'.
      apply mild_bind; [apply mild_get|]. intros r. split; [done|]. intros h. exact I.
    - split; [exact (faithful_alter rank h0 _ n (removes_set key v H) l)|]. apply neat_alter; [exact Hf|apply under_nil|by right].
    - split; [exact (faithful_alter rank h0 _ n (removes_del key) l)|]. apply neat_alter; [exact Hf|apply under_nil|by right].
    - exact (good_mild _ _ _ (mild_show F ord n go l) (tidy_show rank F ord Hord n go l [] (under_nil rank l))).
    - exact (good_mild _ _ _ (mild_inspect _ c _) (tidy_inspect rank (fun _ => True) c _ [] (under_nil rank c) (fun _ _ _ _ => I))).
    - exact (good_mild _ _ _ (mild_inspect _ c _) (tidy_elem rank c i [] (under_nil rank c))).
  Qed.
  Lemma good_execute langs th n t data : good _ (s_execute F ord langs th n t data).
  Proof using Hord Hf.
    apply (closed_execute F ord langs th good).
    - apply good_bind.
    - intros A a. by split.
    - intros A. by split.
    - intros A. by split.
    - intros A f. by split.
    - intros n' l key. exact (good_harmless _ _ (harmless_get F ord n' l key)).
    - intros c. exact (good_harmless _ _ (harmless_count F ord c)).
    - intros c i. exact (good_harmless _ _ (harmless_elem F ord c i)).
    - intros n' l z. apply good_harmless, harmless_set. discriminate.
    - intros n' go l. exact (good_harmless _ _ (harmless_show F ord n' go l)).
    - intros n' v. refine (good_mild _ _ (fun _ => True) _ (orderly_value F ord Hord rank (eq []) n' v)). apply mild_value, mild_show.
  Qed.
  Lemma good_server {A} (p : prog A) : server F ord p -> good A p.
  Proof using Hord Hf.
    induction 1 as [a| | |C m f Hm Hf' IH|langs th n t data f Hf' IH]; try by split.
    - apply good_bind; [exact (good_harmless C m Hm)|exact IH].
    - apply good_bind; [apply good_execute|exact IH].
  Qed.
  (** Each goroutine at each moment. *)
  Definition proper {A} (g : routine A) : Prop :=
    faithful rank h0 (code g) /\ neat rank h0 (stay [] (fun _ => True)) (eq []) (held g) (code g) /\ (asked g = true -> exists l k, code g = Take true l k).
  Lemma proper_step {A} i h (gs : list (routine A)) h' gs' : fine rank h0 h -> Forall proper gs -> moves i (h, gs) (h', gs') -> fine rank h0 h' /\ Forall proper gs'.
  Proof.
    intros Hh Hs Hm. inversion Hm as [? ? hs b l k E Hb|? ? hs l k E|? ? hs l k E Ht|? ? hs b w l k E Hin|? ? hs b w k E]; subst;
      pose proof (proj1 (Forall_lookup _ _) Hs _ _ E) as (Hw & Ht0 & Ha); cbn in Hw, Ht0, Ha.
    - split; [exact Hh|]. apply Forall_insert; [exact Hs|]. split; [exact Hw|]. split; cbn; [exact (proj2 Ht0)|]. intros ->. destruct (Ha eq_refl) as (? & ? & E'). discriminate E'.
    - split; [exact Hh|]. apply Forall_insert; [exact Hs|]. split; [exact Hw|]. split; cbn; [exact Ht0|]. intros _. by exists l, k.
    - split; [exact Hh|]. apply Forall_insert; [exact Hs|]. split; [exact Hw|]. split; cbn; [exact (proj2 Ht0)|]. discriminate.
    - split; [exact Hh|]. apply Forall_insert; [exact Hs|]. destruct Ht0 as (hs' & -> & Hk). split; [exact Hw|]. split; cbn.
      + destruct (decide ((w, l) = (w, l))) as [_|n]; [exact Hk|by destruct n].
      + intros ->. destruct (Ha eq_refl) as (? & ? & E'). discriminate E'.
    - destruct Hw as [Hw Hk]. split; [exact (Hw h Hh)|]. apply Forall_insert; [exact Hs|]. split; [apply Hk|]. split; cbn; [exact (Ht0 h Hh)|].
      intros ->. destruct (Ha eq_refl) as (? & ? & E'). discriminate E'.
  Qed.
End Served.


Lemma harmless_method F ord C (m : prog C) : harmless F ord C m -> method F ord C m.
Proof. destruct 1; constructor. Qed.
Lemma server_worker F ord {A} (p : prog A) : server F ord p -> worker F ord p.
Proof.
  induction 1 as [a| | |C m f Hm Hf IH|langs th n t data f Hf IH].
  - apply works_done.
  - apply works_crash.
  - apply works_short.
  - exact (works_method F ord C m f (harmless_method F ord C m Hm) IH).
  - exact (works_execute F ord langs th n t data f IH).
Qed.
Section Servers.
  Context (F : golib) (ord : heap -> gmap bytes value -> list (bytes * value)) (Hord : order_ok ord).
  Context {A : Type} (rank : loc -> nat) (path : nat -> heap * list (routine A)) (T : nat) (h : heap) (ps : list (prog A)).
  Context (H0 : path 0 = (h, map fresh ps)) (Hps : Forall (server F ord) ps) (Hp : history T path) (Hr : ranked rank h) (Hf : filled h).
  Lemma servers_fine m : m <= T -> fine rank h (path m).1 /\ Forall (proper rank h) (path m).2.
  Proof using All.
    induction m as [|m IH]; intros Hm.
    - rewrite H0. split; [split; [exact Hr|apply steady_refl]|]. cbn. apply Forall_map. eapply Forall_impl; [exact Hps|].
      intros p Hs. destruct (good_server F ord Hord rank h Hf p Hs) as [H1 H2]. split; [exact H1|]. split; [exact H2|discriminate].
    - destruct (IH ltac:(lia)) as [Hh Hg]. destruct (Hp m ltac:(lia)) as [i Hi]. destruct (path m) as [h1 gs] eqn:E1, (path (S m)) as [h2 gs'] eqn:E2.
      exact (proper_step rank h i h1 gs h2 gs' Hh Hg Hi).
  Qed.
  Lemma servers_ranked m : m <= T -> ranked rank (path m).1.
  Proof using All. intros Hm. exact (proj1 (proj1 (servers_fine m Hm))). Qed.
  Lemma servers_workers : Forall (worker F ord) ps.
  Proof using Hps. eapply Forall_impl; [exact Hps|]. intros p. apply server_worker. Qed.
  Lemma servers_circle i : ~ tc (waits (path T).2) i i.
  Proof using All. exact (workers_circle F ord Hord rank path T h ps H0 servers_workers Hp servers_ranked i). Qed.
  Lemma servers_holders g : g ∈ (path T).2 -> over g -> ~ starved g -> held g = [].
  Proof using All.
    intros Hg Ho Hn. destruct (servers_fine T (le_n T)) as [_ Hall]. rewrite Forall_forall in Hall. destruct (Hall g Hg) as (_ & Ht & _).
    unfold over, starved in *. destruct (code g); try done.
    - exact (proj1 Ht).
  Qed.
  Lemma servers_return : (forall g, g ∈ (path T).2 -> ~ starved g) -> (forall i, ~ can_move (path T) i) ->
    forall g, g ∈ (path T).2 -> over g /\ held g = [].
  Proof using All.
    intros Hn Hs g Hg. assert (Ho : over g).
    { pose proof (workers_return F ord Hord rank path T h ps H0 servers_workers Hp servers_ranked) as H. rewrite Forall_forall in H. apply H; [|exact Hs|exact Hg].
      intros g' Hg' Ho'. exact (servers_holders g' Hg' Ho' (Hn g' Hg')). }
    split; [exact Ho|]. exact (servers_holders g Hg Ho (Hn g Hg)).
  Qed.
End Servers.

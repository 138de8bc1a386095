(** * C124: without other goroutines the methods with locks are the methods of DatasetModel.v. *)
From Verif Require Import GoBase GoStrings LangModel DatasetModel DatasetSpec DatasetProofs3 ParModel ParProofs SnapModel TellModel WaitModel WaitSpec.
Local Open Scope nat_scope.

Definition kept_heap {A} (h : heap) (r : outcome A) : outcome (heap * A) := a <-! r; Ok (h, a).
Lemma solo_bind {A C} (m : prog A) (f : A -> prog C) h : solo (pbind m f) h = ('(h1, a) <-! solo m h; solo (f a) h1).
Proof. revert h. induction m as [a| | |w l k IH|w l k IH|w k IH]; intros h; cbn; try reflexivity; apply IH. Qed.
Lemma solo_deferred {A} l (m : prog A) h : solo (deferred l m) h = solo m h.
Proof. revert h. induction m as [a| | |w x k IH|w x k IH|w k IH]; intros h; cbn; try reflexivity; apply IH. Qed.
Lemma solo_reading {A} l (m : prog A) h : solo (reading l m) h = solo m h.
Proof. apply solo_deferred. Qed.
Lemma solo_holding {A} w l (m : prog A) h : solo (holding w l m) h = solo m h.
Proof. unfold holding. cbn [solo]. rewrite solo_bind. destruct (solo m h) as [[h1 a]| |]; reflexivity. Qed.
Lemma solo_given {A} (r : outcome A) h : solo (given r) h = kept_heap h r.
Proof. by destruct r. Qed.
Lemma solo_change {A} (f : heap -> outcome (heap * A)) h : solo (change f) h = f h.
Proof. unfold change. cbn [solo]. rewrite solo_given. destruct (f h) as [[h1 a]| |]; reflexivity. Qed.
Lemma solo_inspect {A} c (f : heap -> outcome A) h : solo (w_inspect c f) h = kept_heap h (f h).
Proof.
  unfold w_inspect, see. cbn [solo]. destruct (h !! c) as [[m|d|xs|xs]|]; try apply solo_given.
  rewrite solo_reading. apply solo_given.
Qed.
Lemma solo_brief {A} c (f : heap -> outcome A) h : solo (w_brief c f) h = kept_heap h (f h).
Proof.
  unfold w_brief, see. cbn [solo]. destruct (h !! c) as [[m|d|xs|xs]|]; try apply solo_given.
  rewrite solo_holding. apply solo_given.
Qed.
Lemma solo_modify {A} c (f : heap -> outcome (heap * A)) h : solo (w_modify c f) h = f h.
Proof.
  unfold w_modify, see. cbn [solo]. destruct (h !! c) as [[m|d|xs|xs]|]; try apply solo_change.
  rewrite solo_holding. apply solo_change.
Qed.
Lemma solo_get n : forall l key h, solo (w_get n l key) h = kept_heap h (dget n h l key).
Proof.
  induction n as [|n IH]; intros l key h; [reflexivity|]. cbn [w_get dget]. unfold see. cbn [solo].
  destruct (h !! l) as [[m|[d|]|xs|xs]|]; try reflexivity.
  - destruct (split_on gt key) as [|x0 [|x1 rest]]; try reflexivity.
    destruct (m !! x0) as [v|]; [|reflexivity]. destruct (as_dataset h v) as [d|]; [apply IH|].
    destruct (as_collection h v) as [c|]; [|reflexivity]. destruct (atoi x1) as [i|]; [|reflexivity].
    unfold w_elem. rewrite solo_bind, solo_inspect. destruct (cget h c i) as [[[e|]|]| |]; try reflexivity.
    destruct rest; [reflexivity|]. apply IH.
  - rewrite solo_reading. apply IH.
Qed.
Lemma solo_under {A} f (f' : loc -> gmap bytes value -> outcome A) h : (forall l m, h !! l = Some (ODs m) -> solo (f l) h = kept_heap h (f' l m)) ->
  forall n l, solo (w_under n l f) h = kept_heap h (on_dataset n h l f').
Proof.
  intros Hf n. induction n as [|n IH]; intros l; [reflexivity|]. cbn [w_under on_dataset]. unfold see. cbn [solo].
  destruct (h !! l) as [[m|[d|]|xs|xs]|] eqn:El; try reflexivity.
  - exact (Hf l m El).
  - rewrite solo_reading. apply IH.
Qed.
Lemma solo_typed {A} n l key conv (zero : A) h : solo (w_typed n l key conv zero) h = kept_heap h (typed n h l key (conv h) zero).
Proof.
  unfold w_typed, typed. apply solo_under. intros l' m _. rewrite solo_bind, solo_get.
  destruct (dget n h l' key) as [r| |]; reflexivity.
Qed.
Lemma solo_alter f n : forall l h, solo (w_alter n l f) h = (h1 <-! on_dataset n h l (fun l' m => Ok (<[l' := ODs (f m)]> h)); Ok (h1, tt)).
Proof.
  induction n as [|n IH]; intros l h; [reflexivity|]. cbn [w_alter on_dataset]. unfold see. cbn [solo].
  destruct (h !! l) as [[m|[d|]|xs|xs]|] eqn:El; try reflexivity.
  - rewrite solo_change. by rewrite El.
  - rewrite solo_holding. apply IH.
Qed.
Lemma solo_search n c key h xs : elements h c = Some xs -> forall i, i <= length xs ->
  solo (w_search n c i key) h = kept_heap h (search n h (reverse (take i xs)) key).
Proof.
  intros Ex. induction i as [|i IH]; intros Hi; [reflexivity|]. cbn [w_search]. rewrite solo_bind, solo_brief, Ex.
  destruct (xs !! i) as [e|] eqn:Ee; [|apply lookup_ge_None in Ee; lia].
  rewrite (take_S_r _ _ _ Ee), reverse_snoc. cbn [kept_heap obind]. destruct e as [d|]; [|reflexivity]. cbn [search].
  rewrite solo_bind, solo_get. destruct (dget n h d key) as [[v|]| |]; try reflexivity. apply IH. lia.
Qed.
Lemma solo_data n c key h : solo (w_data n c key) h = kept_heap h (cget_data n h c key).
Proof.
  unfold w_data, cget_data. rewrite solo_bind, solo_brief. destruct (elements h c) as [xs|] eqn:Ex; [|reflexivity]. cbn [kept_heap obind].
  rewrite (solo_search n c key h xs Ex (length xs) (le_n _)). by rewrite take_ge by lia.
Qed.

Section Clone.
  Context (ord : heap -> gmap bytes value -> list (bytes * value)).
  Lemma solo_entries f f' h es : (forall l h, solo (f l) h = alone (f' l) h) -> solo (w_entries f es) h = alone (p_entries f' es) h.
  Proof.
    intros Hf. revert h. induction es as [|[k v] es IH]; intros h; [reflexivity|]. cbn [w_entries p_entries]. rewrite solo_bind, alone_bind.
    replace (solo match v with VRef r => f r | _ => Done (Leaf v) end h) with (alone match v with VRef r => f' r | _ => Ret (Leaf v) end h)
      by (destruct v; try reflexivity; symmetry; apply Hf).
    destruct (alone _ h) as [[h1 t]| |]; try reflexivity. cbn [obind]. rewrite solo_bind, alone_bind, IH.
    destruct (alone _ h1) as [[h2 ts]| |]; reflexivity.
  Qed.
  Lemma solo_elements f f' h xs : (forall l h, solo (f l) h = alone (f' l) h) -> solo (w_elements f xs) h = alone (p_elements f' xs) h.
  Proof.
    intros Hf. revert h. induction xs as [|[x|] xs IH]; intros h; [reflexivity| |reflexivity]. cbn [w_elements p_elements]. rewrite solo_bind, alone_bind, Hf.
    destruct (alone _ h) as [[h1 t]| |]; try reflexivity. cbn [obind]. rewrite solo_bind, alone_bind, IH.
    destruct (alone _ h1) as [[h2 ts]| |]; reflexivity.
  Qed.
  Lemma solo_clone n : forall l h, solo (w_clone ord n l) h = alone (p_copy ord n l) h.
  Proof.
    induction n as [|n IH]; intros l h; [reflexivity|]. cbn [w_clone p_copy]. unfold see. cbn [solo alone].
    destruct (h !! l) as [[m|[d|]|xs|xs]|] eqn:El; try reflexivity.
    - rewrite solo_bind, alone_bind, (solo_entries _ (p_copy ord n) h (ord h m) IH). destruct (alone _ h) as [[h1 t]| |]; reflexivity.
    - rewrite solo_holding, solo_bind, alone_bind, IH. destruct (alone _ h) as [[h1 t]| |]; reflexivity.
    - rewrite solo_bind, alone_bind, (solo_elements _ (p_copy ord n) h xs IH). destruct (alone _ h) as [[h1 t]| |]; reflexivity.
    - rewrite solo_bind, alone_bind, (solo_elements _ (p_copy ord n) h xs IH). destruct (alone _ h) as [[h1 t]| |]; reflexivity.
  Qed.
End Clone.

(** Programs that do not write. *)
Fixpoint mild {A} (m : prog A) : Prop :=
  match m with
  | Done _ | Crash | Short => True
  | Take _ _ k | Leave _ _ k => mild k
  | Look w k => (forall h, w h = h) /\ forall h, mild (k h)
  end.
Lemma mild_bind {A C} (m : prog A) (f : A -> prog C) : mild m -> (forall a, mild (f a)) -> mild (pbind m f).
Proof.
  intros Hm Hf. induction m as [a| | |w l k IH|w l k IH|w k IH]; cbn in *; try done; try apply Hf; try exact (IH Hm).
  destruct Hm as [Hw Hk]. split; [exact Hw|]. intros h. exact (IH h (Hk h)).
Qed.
Lemma mild_deferred {A} l (m : prog A) : mild m -> mild (deferred l m).
Proof.
  intros Hm. induction m as [a| | |w x k IH|w x k IH|w k IH]; cbn in *; try done; try exact (IH Hm).
  destruct Hm as [Hw Hk]. split; [exact Hw|]. intros h. exact (IH h (Hk h)).
Qed.
Lemma mild_caught {A} (m : prog A) d : mild m -> mild (caught m d).
Proof.
  intros Hm. induction m as [a| | |w x k IH|w x k IH|w k IH]; cbn in *; try done; try exact (IH Hm).
  destruct Hm as [Hw Hk]. split; [exact Hw|]. intros h. exact (IH h (Hk h)).
Qed.
Lemma solo_caught {A} (m : prog A) d h r : mild m -> solo m h = kept_heap h r ->
  solo (caught m d) h = kept_heap h (match r with Panic => Ok d | x => x end).
Proof.
  revert h. induction m as [a| | |w l k IH|w l k IH|w k IH]; intros h Hm E; cbn in *; try exact (IH h Hm E).
  - destruct r; cbn in *; try discriminate E. exact E.
  - destruct r; cbn in *; try discriminate E. reflexivity.
  - destruct r; cbn in *; try discriminate E. reflexivity.
  - destruct Hm as [Hw Hk]. rewrite (Hw h) in E |- *. exact (IH h h (Hk h) E).
Qed.

Section Show.
  Context (F : golib) (ord : heap -> gmap bytes value -> list (bytes * value)).
  Lemma mild_value f go v : (forall go l, mild (f go l)) -> mild (w_value F f go v).
  Proof. intros Hf. destruct v; try exact I. apply mild_caught, Hf. Qed.
  Lemma mild_words f es : (forall v, mild (f v)) -> mild (w_words f es).
  Proof.
    intros Hf. induction es as [|[k v] es IH]; [exact I|]. cbn [w_words]. apply mild_bind; [apply Hf|]. intros t.
    apply mild_bind; [exact IH|]. intros ts. exact I.
  Qed.
  Lemma mild_items f xs : (forall v, mild (f v)) -> forall i, mild (w_items f i xs).
  Proof.
    intros Hf. induction xs as [|x xs IH]; intros i; [exact I|]. cbn [w_items]. apply mild_bind; [apply Hf|]. intros t.
    apply mild_bind; [apply IH|]. intros ts. exact I.
  Qed.
  Lemma mild_show n : forall go l, mild (w_show F ord n go l).
  Proof.
    induction n as [|n IH]; intros go l; [exact I|]. split; [reflexivity|]. intros h. destruct (h !! l) as [[m|[d|]|xs|xs]|]; try exact I.
    - apply mild_bind; [|intros; exact I]. apply mild_words. intros v. apply mild_value, IH.
    - cbn. apply mild_deferred, IH.
    - apply mild_bind; [|intros; exact I]. apply mild_items. intros v. apply mild_value, IH.
    - cbn [holding mild]. apply mild_bind; [|intros; exact I]. split; [reflexivity|]. intros h1.
      apply mild_bind; [|intros; exact I]. apply mild_items. intros v. apply mild_value, IH.
  Qed.
  Lemma solo_value f f' go v h : (forall go l, mild (f go l)) -> (forall l, solo (f go l) h = kept_heap h (f' go l)) ->
    solo (w_value F f go v) h = kept_heap h (show_value F f' go v).
  Proof.
    intros Hm Hf. destruct v; try reflexivity. cbn [w_value show_value]. rewrite (solo_caught _ _ h (f' go l) (Hm go l) (Hf l)).
    destruct (f' go l); reflexivity.
  Qed.
  Lemma solo_words f f' es h : (forall v, solo (f v) h = kept_heap h (f' v)) -> solo (w_words f es) h = kept_heap h (show_entries f' es).
  Proof.
    intros Hf. induction es as [|[k v] es IH]; [reflexivity|]. cbn [w_words show_entries]. rewrite solo_bind, Hf.
    destruct (f' v) as [t| |]; try reflexivity. cbn [kept_heap obind]. rewrite solo_bind, IH. destruct (show_entries f' es) as [ts| |]; reflexivity.
  Qed.
  Lemma solo_items f f' xs h : (forall v, solo (f v) h = kept_heap h (f' v)) -> forall i, solo (w_items f i xs) h = kept_heap h (show_elements f' i xs).
  Proof.
    intros Hf. induction xs as [|x xs IH]; intros i; [reflexivity|]. cbn [w_items show_elements]. rewrite solo_bind, Hf.
    destruct (f' _) as [t| |]; try reflexivity. cbn [kept_heap obind]. rewrite solo_bind, IH. destruct (show_elements f' (i + 1) xs) as [ts| |]; reflexivity.
  Qed.
  Lemma solo_show n : forall go l h, solo (w_show F ord n go l) h = kept_heap h (show F ord n h go l).
  Proof.
    induction n as [|n IH]; intros go l h; [reflexivity|]. cbn [w_show show]. unfold see. cbn [solo].
    destruct (h !! l) as [[m|[d|]|xs|xs]|] eqn:El; try reflexivity.
    - rewrite solo_bind, (solo_words _ (show_value F (show F ord n h) go)).
      + destruct (show_entries _ _); reflexivity.
      + intros v. apply solo_value; [apply mild_show|]. intros l'. apply IH.
    - rewrite solo_reading. apply IH.
    - rewrite solo_bind, (solo_items _ (show_value F (show F ord n h) false)).
      + destruct (show_elements _ _ _); reflexivity.
      + intros v. apply solo_value; [apply mild_show|]. intros l'. apply IH.
    - rewrite solo_holding. cbn [solo]. unfold elements. rewrite El. cbn [default].
      rewrite solo_bind. change (default [] (Some xs)) with xs. rewrite (solo_items _ (show_value F (show F ord n h) false)).
      + destruct (show_elements _ _ _); reflexivity.
      + intros v. apply solo_value; [apply mild_show|]. intros l'. apply IH.
  Qed.
  Lemma solo_string n l key h : solo (w_string F ord n l key) h = kept_heap h (get_string F ord n h l key).
  Proof.
    unfold w_string, get_string. apply solo_under. intros l' m _. rewrite solo_bind, solo_get.
    destruct (dget n h l' key) as [r| |]; try reflexivity. cbn [kept_heap obind].
    assert (Hv : forall v, solo (t <~~ w_value F (w_show F ord n) false v; Done (t, true)) h = kept_heap h (t <-! sprint F ord n h v; Ok (t, true))).
    { intros v. rewrite solo_bind. unfold sprint. rewrite (solo_value _ (show F ord n h) false v h (mild_show n)); [|intros x; apply solo_show].
      destruct (show_value _ _ _ _); reflexivity. }
    destruct r as [v|]; [|reflexivity]. destruct v; try apply Hv. reflexivity.
  Qed.
End Show.

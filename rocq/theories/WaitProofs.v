(** * C124: the locks are taken from the outside to the inside, and left in the reverse order. *)
From Verif Require Import GoBase GoStrings LangModel DatasetModel DatasetSpec DatasetProofs3 SnapModel TellModel WaitModel WaitSpec.
Local Open Scope nat_scope.

Definition under (rank : loc -> nat) (hs : list (bool * loc)) (l : loc) : Prop := forall x, x ∈ hs -> rank l < rank x.2.
(** From the locks [hs]: [Q] holds of the result and the locks then held, [K] of the locks held at a panic. *)
Fixpoint tidy {A} (rank : loc -> nat) (Q : A -> list (bool * loc) -> Prop) (K : list (bool * loc) -> Prop) (hs : list (bool * loc)) (p : prog A) : Prop :=
  match p with
  | Done a => Q a hs
  | Crash => K hs
  | Short => True
  | Take w l k => under rank hs l /\ tidy rank Q K ((w, l) :: hs) k
  | Leave w l k => exists hs', hs = (w, l) :: hs' /\ tidy rank Q K hs' k
  | Look w k => forall h, ranked rank h -> tidy rank Q K hs (k h)
  end.
Definition stay {A} (hs : list (bool * loc)) (Q : A -> Prop) : A -> list (bool * loc) -> Prop := fun a hs' => hs' = hs /\ Q a.
Notation anyway := (fun _ => True).

Section Tidy.
  Context (rank : loc -> nat).
  Notation tidy := (tidy rank). Notation under := (under rank).

  Lemma tidy_weak {A} (Q Q' : A -> _ -> Prop) (K K' : _ -> Prop) p hs :
    (forall a hs, Q a hs -> Q' a hs) -> (forall hs, K hs -> K' hs) -> tidy Q K hs p -> tidy Q' K' hs p.
  Proof.
    intros HQ HK. revert hs. induction p as [a| | |w l k IH|w l k IH|w k IH]; cbn; intros hs.
    - apply HQ.
    - apply HK.
    - done.
    - intros [Hu Hk]. split; [exact Hu|]. exact (IH _ Hk).
    - intros (hs' & -> & Hk). exists hs'. split; [reflexivity|]. exact (IH _ Hk).
    - intros Hk h Hh. exact (IH h _ (Hk h Hh)).
  Qed.
  Lemma tidy_bind {A C} (Q' : A -> _ -> Prop) (Q : C -> _ -> Prop) K m f hs :
    tidy Q' K hs m -> (forall a hs', Q' a hs' -> tidy Q K hs' (f a)) -> tidy Q K hs (pbind m f).
  Proof.
    intros Hm Hf. revert hs Hm. induction m as [a| | |w l k IH|w l k IH|w k IH]; cbn; intros hs.
    - apply Hf.
    - done.
    - done.
    - intros [Hu Hk]. split; [exact Hu|]. exact (IH _ Hk).
    - intros (hs' & -> & Hk). exists hs'. split; [reflexivity|]. exact (IH _ Hk).
    - intros Hk h Hh. exact (IH h _ (Hk h Hh)).
  Qed.
  Lemma tidy_deferred {A} (Q : A -> Prop) l m H hs :
    tidy (stay ((false, l) :: H) Q) (eq ((false, l) :: H)) hs m -> tidy (stay H Q) (eq H) hs (deferred l m).
  Proof.
    revert hs. induction m as [a| | |w x k IH|w x k IH|w k IH]; cbn; intros hs.
    - intros [-> HQ]. exists H. split; [reflexivity|]. split; [reflexivity|exact HQ].
    - intros <-. exists H. split; reflexivity.
    - done.
    - intros [Hu Hk]. split; [exact Hu|]. exact (IH _ Hk).
    - intros (hs' & -> & Hk). exists hs'. split; [reflexivity|]. exact (IH _ Hk).
    - intros Hk h Hh. exact (IH h _ (Hk h Hh)).
  Qed.
  Lemma tidy_reading {A} (Q : A -> Prop) l m hs : under hs l ->
    tidy (stay ((false, l) :: hs) Q) (eq ((false, l) :: hs)) ((false, l) :: hs) m -> tidy (stay hs Q) (eq hs) hs (reading l m).
  Proof. intros Hu Hm. split; [exact Hu|]. exact (tidy_deferred Q l m hs _ Hm). Qed.
  Lemma tidy_holding {A} (Q : A -> Prop) w l m hs K : under hs l ->
    tidy (stay ((w, l) :: hs) Q) K ((w, l) :: hs) m -> tidy (stay hs Q) K hs (holding w l m).
  Proof.
    intros Hu Hm. split; [exact Hu|]. refine (tidy_bind _ _ _ _ _ _ Hm _). intros a hs' [-> HQ].
    exists hs. split; [reflexivity|]. split; [reflexivity|exact HQ].
  Qed.
  Lemma tidy_caught {A} (Q : A -> Prop) m d H hs (K : _ -> Prop) :
    tidy (stay H Q) (eq H) hs m -> Q d -> tidy (stay H Q) K hs (caught m d).
  Proof.
    intros Hm Hd. revert hs Hm. induction m as [a| | |w x k IH|w x k IH|w k IH]; cbn; intros hs.
    - done.
    - intros <-. split; [reflexivity|exact Hd].
    - done.
    - intros [Hu Hk]. split; [exact Hu|]. exact (IH _ Hk).
    - intros (hs' & -> & Hk). exists hs'. split; [reflexivity|]. exact (IH _ Hk).
    - intros Hk h Hh. exact (IH h _ (Hk h Hh)).
  Qed.
  Lemma tidy_see {A} (Q : A -> _ -> Prop) K hs f : (forall h, ranked rank h -> tidy Q K hs (f h)) -> tidy Q K hs (see f).
  Proof. done. Qed.
  Lemma tidy_given {A} (Q : A -> Prop) (r : outcome A) hs : (forall a, r = Ok a -> Q a) -> tidy (stay hs Q) (eq hs) hs (given r).
  Proof. intros Hr. destruct r; cbn; [|reflexivity|done]. split; [reflexivity|]. apply Hr. reflexivity. Qed.

  Lemma under_down hs l y h : ranked rank h -> under hs l -> child h l y -> under hs y.
  Proof. intros Hh Hu Hc x Hx. pose proof (Hu x Hx). pose proof (Hh _ _ Hc). lia. Qed.
  Lemma under_take w hs l y h : ranked rank h -> under hs l -> child h l y -> under ((w, l) :: hs) y.
  Proof.
    intros Hh Hu Hc x [->|Hx]%elem_of_cons.
    - exact (Hh _ _ Hc).
    - exact (under_down hs l y h Hh Hu Hc x Hx).
  Qed.
  Lemma under_less hs l y : under hs l -> rank y < rank l -> under hs y.
  Proof. intros Hu Hr x Hx. pose proof (Hu x Hx). lia. Qed.

  (** ** Collections *)
  Lemma tidy_inspect {A} (Q : A -> Prop) c f hs : under hs c -> (forall h a, ranked rank h -> f h = Ok a -> Q a) ->
    tidy (stay hs Q) (eq hs) hs (w_inspect c f).
  Proof.
    intros Hu Hf h Hh. destruct (h !! c) as [[m|d|xs|xs]|]; try (apply tidy_given; intros a Ha; exact (Hf h a Hh Ha)).
    apply tidy_reading; [exact Hu|]. intros h1 Hh1. apply tidy_given. intros a Ha. exact (Hf h1 a Hh1 Ha).
  Qed.
  Lemma tidy_brief {A} (Q : A -> Prop) c f hs : under hs c -> (forall h a, ranked rank h -> f h = Ok a -> Q a) ->
    tidy (stay hs Q) anyway hs (w_brief c f).
  Proof.
    intros Hu Hf h Hh.
    destruct (h !! c) as [[m|d|xs|xs]|];
      try (refine (tidy_weak _ _ _ _ _ _ (fun _ _ x => x) (fun _ _ => I) (tidy_given Q (f h) hs _)); intros a Ha; exact (Hf h a Hh Ha)).
    apply tidy_holding; [exact Hu|]. intros h1 Hh1.
    refine (tidy_weak _ _ _ _ _ _ (fun _ _ x => x) (fun _ _ => I) (tidy_given Q (f h1) _ _)). intros a Ha. exact (Hf h1 a Hh1 Ha).
  Qed.
  Lemma tidy_change {A} f hs : tidy (stay hs (fun _ : A => True)) anyway hs (change f).
  Proof.
    intros h Hh. refine (tidy_weak _ _ _ _ _ _ (fun _ _ x => x) (fun _ _ => I) (tidy_given _ _ hs _)). done.
  Qed.
  Lemma tidy_modify {A} c f hs : under hs c -> tidy (stay hs (fun _ : A => True)) anyway hs (w_modify c f).
  Proof.
    intros Hu h Hh. destruct (h !! c) as [[m|d|xs|xs]|]; try apply tidy_change.
    apply tidy_holding; [exact Hu|]. apply tidy_change.
  Qed.
  Lemma elements_child h c xs y : elements h c = Some xs -> Some y ∈ xs -> child h c y.
  Proof.
    unfold elements. intros E Hy. destruct (h !! c) as [[m|d|ys|ys]|] eqn:Ec; try discriminate E; injection E as ->.
    - apply (child_coll h c xs y); [left|]; assumption.
    - apply (child_coll h c xs y); [right|]; assumption.
  Qed.
  Lemma tidy_elem c i hs : under hs c -> tidy (stay hs (fun r => forall y, r = Some (Some y) -> rank y < rank c)) (eq hs) hs (w_elem c i).
  Proof.
    intros Hu. apply tidy_inspect; [exact Hu|]. intros h a Hh E y ->. unfold cget in E.
    destruct (elements h c) as [xs|] eqn:Ex; [|discriminate E].
    destruct (_ || _); [discriminate E|]. destruct (xs !! Z.to_nat i) as [d|] eqn:Ed; [|discriminate E]. injection E as ->.
    apply Hh, (elements_child h c xs y Ex). exact (elem_of_list_lookup_2 _ _ _ Ed).
  Qed.

  (** ** Datasets *)
  Lemma as_dataset_ref h v d : as_dataset h v = Some d -> v = VRef d.
  Proof. destruct v; try discriminate. cbn. destruct (h !! l) as [[]|]; congruence. Qed.
  Lemma as_collection_ref h v d : as_collection h v = Some d -> v = VRef d.
  Proof. destruct v; try discriminate. cbn. destruct (h !! l) as [[]|]; congruence. Qed.

  Definition lower (l : loc) (r : option value) : Prop := forall y, r = Some (VRef y) -> rank y < rank l.
  Lemma lower_trans l x r : rank x < rank l -> lower x r -> lower l r.
  Proof. intros Hx Hr y E. pose proof (Hr y E). lia. Qed.
  Lemma stay_lower hs l x (r : option value) hs' : rank x < rank l -> stay hs (lower x) r hs' -> stay hs (lower l) r hs'.
  Proof. intros Hx [-> Hr]. split; [reflexivity|]. exact (lower_trans l x r Hx Hr). Qed.

  Lemma tidy_get n : forall l key hs, under hs l -> tidy (stay hs (lower l)) (eq hs) hs (w_get n l key).
  Proof.
    induction n as [|n IH]; intros l key hs Hu; [exact I|]. intros h Hh.
    destruct (h !! l) as [[m|[d|]|xs|xs]|] eqn:El; try reflexivity.
    - assert (Hlit : stay hs (lower l) (m !! key) hs).
      { split; [reflexivity|]. intros y E. apply Hh. exact (child_ds h l m key y El E). }
      destruct (split_on gt key) as [|x0 [|x1 rest]]; [exact Hlit|exact Hlit|].
      destruct (m !! x0) as [v|] eqn:Ev; [|split; [reflexivity|discriminate]].
      destruct (as_dataset h v) as [d|] eqn:Ed.
      + apply as_dataset_ref in Ed as ->. pose proof (child_ds h l m x0 d El Ev) as Hc.
        refine (tidy_weak _ _ _ _ _ _ _ (fun _ x => x) (IH d _ hs (under_down hs l d h Hh Hu Hc))).
        intros r hs'. apply stay_lower. exact (Hh _ _ Hc).
      + destruct (as_collection h v) as [c|] eqn:Ecc; [|exact Hlit].
        apply as_collection_ref in Ecc as ->. pose proof (child_ds h l m x0 c El Ev) as Hc.
        destruct (atoi x1) as [i|]; [|split; [reflexivity|discriminate]].
        refine (tidy_bind _ _ _ _ _ _ (tidy_elem c i hs (under_down hs l c h Hh Hu Hc)) _).
        intros e hs' [-> He]. pose proof (Hh _ _ Hc) as Hr.
        destruct e as [[y|]|]; [|split; [reflexivity|discriminate]|split; [reflexivity|discriminate]].
        specialize (He y eq_refl). destruct rest as [|x2 rest].
        * split; [reflexivity|]. intros y' E. injection E as <-. lia.
        * refine (tidy_weak _ _ _ _ _ _ _ (fun _ x => x) (IH y _ hs _)).
          -- intros r hs'. apply stay_lower. lia.
          -- apply (under_less hs l); [exact Hu|lia].
    - pose proof (child_ts h l d El) as Hc. apply tidy_reading; [exact Hu|].
      refine (tidy_weak _ _ _ _ _ _ _ (fun _ x => x) (IH d key _ (under_take false hs l d h Hh Hu Hc))).
      intros r hs'. apply stay_lower. exact (Hh _ _ Hc).
    - apply tidy_reading; [exact Hu|]. reflexivity.
  Qed.
  Lemma tidy_under {A} (Q : A -> Prop) f n : forall l hs, under hs l ->
    (forall l' hs', under hs' l' -> tidy (stay hs' Q) (eq hs') hs' (f l')) -> tidy (stay hs Q) (eq hs) hs (w_under n l f).
  Proof.
    induction n as [|n IH]; intros l hs Hu Hf; [exact I|]. intros h Hh.
    destruct (h !! l) as [[m|[d|]|xs|xs]|] eqn:El; try reflexivity.
    - exact (Hf l hs Hu).
    - apply tidy_reading; [exact Hu|]. apply IH; [|exact Hf]. exact (under_take false hs l d h Hh Hu (child_ts h l d El)).
    - apply tidy_reading; [exact Hu|]. reflexivity.
  Qed.
  Lemma tidy_typed {A} n l key conv (zero : A) hs : under hs l -> tidy (stay hs (fun _ => True)) (eq hs) hs (w_typed n l key conv zero).
  Proof.
    intros Hu. apply tidy_under; [exact Hu|]. intros l' hs' Hu'.
    refine (tidy_bind _ _ _ _ _ _ (tidy_get n l' key hs' Hu') _). intros r hs1 [-> _] h Hh. split; [reflexivity|exact I].
  Qed.
  Lemma tidy_alter f n : forall l hs, under hs l -> tidy (stay hs (fun _ => True)) anyway hs (w_alter n l f).
  Proof.
    induction n as [|n IH]; intros l hs Hu; [exact I|]. intros h Hh.
    destruct (h !! l) as [[m|[d|]|xs|xs]|] eqn:El; try exact I.
    - apply tidy_change.
    - apply tidy_holding; [exact Hu|]. apply IH. exact (under_take true hs l d h Hh Hu (child_ts h l d El)).
    - apply tidy_holding; [exact Hu|]. exact I.
  Qed.
  Lemma tidy_data n c key hs : under hs c -> tidy (stay hs (fun _ => True)) anyway hs (w_data n c key).
  Proof.
    intros Hu. unfold w_data. refine (tidy_bind _ _ _ _ _ _ (tidy_brief (fun _ => True) c _ hs Hu (fun _ _ _ _ => I)) _).
    intros i hs' [-> _]. induction i as [|i IH]; [split; [reflexivity|exact I]|].
    cbn [w_search]. refine (tidy_bind (stay hs (fun e => forall y, e = Some y -> rank y < rank c)) _ _ _ _ _ _ _).
    - apply tidy_brief; [exact Hu|]. intros h a Hh E y ->.
      destruct (elements h c) as [xs|] eqn:Ex; [|discriminate E]. destruct (xs !! i) as [e|] eqn:Ee; [|discriminate E]. injection E as ->.
      apply Hh, (elements_child h c xs y Ex). exact (elem_of_list_lookup_2 _ _ _ Ee).
    - intros e hs' [-> He]. destruct e as [d|]; [|exact I].
      refine (tidy_bind (stay hs (fun _ => True)) _ _ _ _ _ _ _).
      + refine (tidy_weak _ _ _ _ _ _ _ (fun _ _ => I) (tidy_get n d key hs _)).
        * intros a hs' [-> _]. split; [reflexivity|exact I].
        * exact (under_less hs c d Hu (He d eq_refl)).
      + intros r hs' [-> _]. destruct r; [split; [reflexivity|exact I]|exact IH].
  Qed.

  (** ** Clone and String *)
  Context (F : golib) (ord : heap -> gmap bytes value -> list (bytes * value)).
  Context (Hord : order_ok ord).
  Lemma ord_child h l m k y : h !! l = Some (ODs m) -> (k, VRef y) ∈ ord h m -> child h l y.
  Proof using Hord.
    intros El Hin. apply (child_ds h l m k y El). apply elem_of_map_to_list.
    rewrite <- (Hord h m). exact Hin.
  Qed.
  Lemma tidy_entries f hs es : (forall k y, (k, VRef y) ∈ es -> tidy (stay hs (fun _ => True)) anyway hs (f y)) ->
    tidy (stay hs (fun _ => True)) anyway hs (w_entries f es).
  Proof.
    induction es as [|[k v] es IH]; intros Hf; [split; [reflexivity|exact I]|]. cbn [w_entries].
    refine (tidy_bind (stay hs (fun _ => True)) _ _ _ _ _ _ _).
    - destruct v; try (split; [reflexivity|exact I]). apply (Hf k). apply elem_of_cons. by left.
    - intros t hs' [-> _]. refine (tidy_bind _ _ _ _ _ _ (IH _) _).
      + intros k' y Hy. apply (Hf k'). apply elem_of_cons. by right.
      + intros es' hs' [-> _]. split; [reflexivity|exact I].
  Qed.
  Lemma tidy_elements f hs xs : (forall y, Some y ∈ xs -> tidy (stay hs (fun _ => True)) anyway hs (f y)) ->
    tidy (stay hs (fun _ => True)) anyway hs (w_elements f xs).
  Proof.
    induction xs as [|[x|] xs IH]; intros Hf; [split; [reflexivity|exact I]| |exact I]. cbn [w_elements].
    refine (tidy_bind (stay hs (fun _ => True)) _ _ _ _ _ (Hf x _) _); [apply elem_of_cons; by left|].
    intros t hs' [-> _]. refine (tidy_bind _ _ _ _ _ _ (IH _) _).
    - intros y Hy. apply Hf. apply elem_of_cons. by right.
    - intros ts hs' [-> _]. split; [reflexivity|exact I].
  Qed.
  Lemma tidy_clone n : forall l hs, under hs l -> tidy (stay hs (fun _ => True)) anyway hs (w_clone ord n l).
  Proof using Hord.
    induction n as [|n IH]; intros l hs Hu; [exact I|]. intros h Hh.
    destruct (h !! l) as [[m|[d|]|xs|xs]|] eqn:El; try exact I.
    - refine (tidy_bind _ _ _ _ _ _ (tidy_entries (w_clone ord n) hs (ord h m) _) _).
      + intros k y Hy. apply IH. exact (under_down hs l y h Hh Hu (ord_child h l m k y El Hy)).
      + intros es hs' [-> _]. split; [reflexivity|exact I].
    - apply tidy_holding; [exact Hu|].
      refine (tidy_bind _ _ _ _ _ _ (IH d _ (under_take false hs l d h Hh Hu (child_ts h l d El))) _).
      intros t hs' [-> _]. split; [reflexivity|exact I].
    - apply tidy_holding; [exact Hu|]. exact I.
    - refine (tidy_bind _ _ _ _ _ _ (tidy_elements (w_clone ord n) hs xs _) _).
      + intros y Hy. apply IH. apply (under_down hs l y h Hh Hu). apply (child_coll h l xs y); [by left|exact Hy].
      + intros es hs' [-> _]. split; [reflexivity|exact I].
    - refine (tidy_bind _ _ _ _ _ _ (tidy_elements (w_clone ord n) hs xs _) _).
      + intros y Hy. apply IH. apply (under_down hs l y h Hh Hu). apply (child_coll h l xs y); [by right|exact Hy].
      + intros es hs' [-> _]. split; [reflexivity|exact I].
  Qed.
  Notation never := (fun _ => False).
  Lemma tidy_words f hs es : (forall k v, (k, v) ∈ es -> tidy (stay hs (fun _ => True)) never hs (f v)) ->
    tidy (stay hs (fun _ => True)) never hs (w_words f es).
  Proof.
    induction es as [|[k v] es IH]; intros Hf; [split; [reflexivity|exact I]|]. cbn [w_words].
    refine (tidy_bind (stay hs (fun _ => True)) _ _ _ _ _ (Hf k v _) _); [apply elem_of_cons; by left|].
    intros t hs' [-> _]. refine (tidy_bind _ _ _ _ _ _ (IH _) _).
    - intros k' y Hy. apply (Hf k'). apply elem_of_cons. by right.
    - intros es' hs' [-> _]. split; [reflexivity|exact I].
  Qed.
  Lemma tidy_items f hs xs : (forall x, x ∈ xs -> tidy (stay hs (fun _ => True)) never hs (f (match x with Some l => VRef l | None => VNil end))) ->
    forall i, tidy (stay hs (fun _ => True)) never hs (w_items f i xs).
  Proof.
    induction xs as [|x xs IH]; intros Hf i; [split; [reflexivity|exact I]|]. cbn [w_items].
    refine (tidy_bind (stay hs (fun _ => True)) _ _ _ _ _ (Hf x _) _); [apply elem_of_cons; by left|].
    intros t hs' [-> _]. refine (tidy_bind _ _ _ _ _ _ (IH _ _) _).
    - intros y Hy. apply Hf. apply elem_of_cons. by right.
    - intros ts hs' [-> _]. split; [reflexivity|exact I].
  Qed.
  Lemma tidy_value show go v hs : (forall y, v = VRef y -> tidy (stay hs (fun _ => True)) (eq hs) hs (show go y)) ->
    tidy (stay hs (fun _ => True)) never hs (w_value F show go v).
  Proof.
    intros Hs. destruct v; try (split; [reflexivity|exact I]). apply tidy_caught; [|exact I]. exact (Hs l eq_refl).
  Qed.
  Lemma never_weak {A} (Q : A -> Prop) K hs p : tidy (stay hs Q) never hs p -> tidy (stay hs Q) K hs p.
  Proof. apply tidy_weak; done. Qed.
  Lemma tidy_show n : forall go l hs, under hs l -> tidy (stay hs (fun _ => True)) (eq hs) hs (w_show F ord n go l).
  Proof using Hord.
    induction n as [|n IH]; intros go l hs Hu; [exact I|]. intros h Hh.
    destruct (h !! l) as [[m|[d|]|xs|xs]|] eqn:El; try reflexivity.
    - refine (tidy_bind _ _ _ _ _ _ (never_weak _ _ _ _ (tidy_words _ hs (ord h m) _)) _).
      + intros k v Hv. apply tidy_value. intros y ->. apply IH. exact (under_down hs l y h Hh Hu (ord_child h l m k y El Hv)).
      + intros es hs' [-> _]. split; [reflexivity|exact I].
    - apply tidy_reading; [exact Hu|]. apply IH. exact (under_take false hs l d h Hh Hu (child_ts h l d El)).
    - apply tidy_reading; [exact Hu|]. reflexivity.
    - refine (tidy_bind _ _ _ _ _ _ (never_weak _ _ _ _ (tidy_items _ hs xs _ _)) _).
      + intros x Hx. apply tidy_value. intros y E. destruct x as [x|]; [|discriminate E]. injection E as ->.
        apply IH. apply (under_down hs l y h Hh Hu). apply (child_coll h l xs y); [by left|exact Hx].
      + intros es hs' [-> _]. split; [reflexivity|exact I].
    - apply tidy_holding; [exact Hu|]. intros h1 Hh1.
      refine (tidy_bind _ _ _ _ _ _ (never_weak _ _ _ _ (tidy_items _ _ (default [] (elements h1 l)) _ _)) _).
      + intros x Hx. apply tidy_value. intros y E. destruct x as [x|]; [|discriminate E]. injection E as ->.
        destruct (elements h1 l) as [ys|] eqn:Ey; [|by apply elem_of_nil in Hx].
        apply IH. apply (under_take false hs l y h1 Hh1 Hu). exact (elements_child h1 l ys y Ey Hx).
      + intros es hs' [-> _]. split; [reflexivity|exact I].
  Qed.
  Lemma tidy_string n l key hs : under hs l -> tidy (stay hs (fun _ => True)) (eq hs) hs (w_string F ord n l key).
  Proof using Hord.
    intros Hu. apply tidy_under; [exact Hu|]. intros l' hs' Hu'.
    refine (tidy_bind _ _ _ _ _ _ (tidy_get n l' key hs' Hu') _). intros r hs1 [-> Hr].
    assert (Hv : forall v, r = Some v -> tidy (stay hs' (fun _ => True)) (eq hs') hs' (t <~~ w_value F (w_show F ord n) false v; Done (t, true))).
    { intros v ->. refine (tidy_bind _ _ _ _ _ _ (never_weak _ _ _ _ (tidy_value _ false v hs' _)) _).
      - intros y ->. apply tidy_show. exact (under_less hs' l' y Hu' (Hr y eq_refl)).
      - intros t hs1 [-> _]. split; [reflexivity|exact I]. }
    destruct r as [v|]; [|split; [reflexivity|exact I]].
    destruct v; try (apply Hv; reflexivity). split; [reflexivity|exact I].
  Qed.

  (** ** Whole goroutines *)
  Lemma loose {A} (Q : A -> Prop) (K : _ -> Prop) hs p : tidy (stay hs Q) K hs p -> tidy (stay hs (fun _ => True)) anyway hs p.
  Proof. apply tidy_weak; [|done]. intros a hs' [-> _]. by split. Qed.
  Lemma tidy_method C (m : prog C) : method F ord C m -> tidy (stay [] (fun _ => True)) anyway [] m.
  Proof using Hord.
    assert (Hu : forall l, under [] l) by (intros l x Hx; by apply elem_of_nil in Hx).
    intros Hm. destruct Hm.
    - exact (loose _ _ _ _ (tidy_get n l key [] (Hu l))).
    - exact (loose _ _ _ _ (tidy_string n l key [] (Hu l))).
    - exact (loose _ _ _ _ (tidy_typed n l key conv zero [] (Hu l))).
    - exact (tidy_alter _ n l [] (Hu l)).
    - exact (tidy_alter _ n l [] (Hu l)).
    - exact (tidy_clone n l [] (Hu l)).
    - exact (loose _ _ _ _ (tidy_show n go l [] (Hu l))).
    - exact (tidy_data n c key [] (Hu c)).
    - exact (loose _ _ _ _ (tidy_inspect (fun _ => True) c _ [] (Hu c) (fun _ _ _ _ => I))).
    - exact (loose _ _ _ _ (tidy_elem c i [] (Hu c))).
    - exact (tidy_modify c _ [] (Hu c)).
    - exact (tidy_modify c _ [] (Hu c)).
    - exact (tidy_modify c _ [] (Hu c)).
    - exact (tidy_modify c _ [] (Hu c)).
  Qed.
  Lemma tidy_caller {A} (p : prog A) : caller F ord p -> tidy (stay [] (fun _ => True)) anyway [] p.
  Proof using Hord.
    induction 1 as [a| | |w k Hk IH|C m f Hm Hf IH].
    - split; [reflexivity|exact I].
    - exact I.
    - exact I.
    - intros h Hh. exact (IH h).
    - refine (tidy_bind _ _ _ _ _ _ (tidy_method C m Hm) _). intros a hs' [-> _]. exact (IH a).
  Qed.
End Tidy.

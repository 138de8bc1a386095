(** * Thread safe data render like plain data (C129): reading, printing, wrappers and a page. *)
From Verif Require Import GoBase GoStrings DatasetModel LangModel DatasetSpec DatasetProofs DatasetProofs2 DatasetProofs3 DatasetProofs4 TemplateModel TemplateSpec
  RenderSpec RenderProofs RenderProofs10 HoleSpec HoleProofs2 HoleProofs3 SameSpec KindSpec KindProofs KindProofs2 KindProofs3.
Local Open Scope nat_scope.

Lemma execute_kinds R F ord ord' langs th n h h' t d d' h1 out : compiled th -> order_ok ord -> order_ok ord' ->
  alike R true h h' -> one_to_one R h h' -> R d d' -> execute F ord langs th n h t (Some d) = Ok (h1, out) ->
  exists n' h1', execute F ord' langs th n' h' t (Some d') = Ok (h1', out) /\ alike R true h1 h1' /\ one_to_one R h1 h1'.
Proof. intros Hc Ho Ho' Ha H1 HR H. by apply (kd_execute R true F ord ord' langs th n h h' t d d' h1 out Hc Ho Ho' (or_introl eq_refl)). Qed.
Lemma execute_modest R F ord ord' langs th n h h' t d d' h1 out : compiled th -> order_ok ord -> order_ok ord' -> modest_template th h t ->
  alike R false h h' -> one_to_one R h h' -> R d d' -> execute F ord langs th n h t (Some d) = Ok (h1, out) ->
  exists n' h1', execute F ord' langs th n' h' t (Some d') = Ok (h1', out) /\ alike R false h1 h1' /\ one_to_one R h1 h1'.
Proof. intros Hc Ho Ho' Hm Ha H1 HR H. by apply (kd_execute R false F ord ord' langs th n h h' t d d' h1 out Hc Ho Ho' (or_intror Hm)). Qed.
Lemma alike_symmetric R b h h' : alike R b h h' -> one_to_one R h h' -> alike (flip R) b h' h /\ one_to_one (flip R) h' h.
Proof. intros H1 H2. split; [by apply kd_flip|by apply kd_one_flip]. Qed.
Lemma gets_alike R b n h h' d d' key r : alike R b h h' -> R d d' -> dget n h d key = Ok r ->
  exists n' r', dget n' h' d' key = Ok r' /\ option_Forall2 (same_value R) r r'.
Proof.
  intros Ha HR H. assert (Hr : answers h d key r) by (apply answers_gets; eauto).
  destruct (kd_answers R b h h' Ha _ _ _ _ HR Hr) as (r' & Hr' & Hs). apply answers_gets in Hr' as [n' Hn']. eauto.
Qed.
Lemma shows_alike R F ord ord' n h h' go l l' s : order_ok ord -> order_ok ord' -> alike R true h h' -> R l l' -> show F ord n h go l = Ok s ->
  exists n', show F ord' n' h' go l' = Ok s.
Proof.
  intros Ho Ho' Ha HR H. destruct (kd_show R true h h' Ha F ord ord' Ho Ho' n n ltac:(done) go l l' HR) as [N HN]; [by rewrite H|].
  exists N. destruct (HN N ltac:(done)) as [_ E]. by rewrite (E eq_refl).
Qed.

(** ** Wrappers *)
(** Every object reachable from [l] is a collection or a dataset, maybe wrapped; a pointer may also lead nowhere. *)
Definition tidy (h : heap) (l : loc) : Prop :=
  forall x, reach h l x -> (exists y m, inside h x y m) \/ (exists xs, collection_at h x xs) \/ h !! x = None.
Definition other_wrapper (h : heap) (d w w' : loc) (a b : loc) : Prop := (a = b /\ reach h d a) \/ (a = w /\ b = w').
Lemma reach_inside h l y m : inside h l y m -> reach h l y.
Proof. induction 1 as [|l d y m E _ IH]; [apply rtc_refl|]. eapply reach_child; [by apply child_ts|done]. Qed.
Lemma wrapper_alike h d w w' m : tidy h d -> inside h w d m -> inside h w' d m ->
  alike (other_wrapper h d w w') true h h /\ one_to_one (other_wrapper h d w w') h h.
Proof.
  intros Ht Hw Hw'.
  assert (Hv : forall y my, h !! y = Some (ODs my) -> reach h d y -> forall k, option_Forall2 (same_value (other_wrapper h d w w')) (my !! k) (my !! k)).
  { intros y my Hy Hr k. destruct (my !! k) as [v|] eqn:E; constructor. destruct v;
      try (left; split; [done|]; intros ? ?; discriminate).
    right. eexists _, _. split; [done|]. split; [done|]. left. split; [done|]. eapply rtc_r; [exact Hr|by eapply child_ds]. }
  split.
  - intros a b [[<- Hr]|[-> ->]].
    + destruct (Ht a Hr) as [(y & my & Hi)|[[xs Hc]|E]].
      * assert (Hy : reach h d y) by (eapply rtc_transitive; [exact Hr|by eapply reach_inside]).
        eapply sc_dataset; [done|done|by left|]. eapply Hv; [by eapply inside_at|done].
      * eapply sc_collection; [done|done| |done]. apply Forall_Forall2_diag, Forall_forall. intros [x|] Hx; constructor. left. split; [done|].
        eapply rtc_r; [exact Hr|by eapply child_coll].
      * by apply sc_nothing.
    + eapply sc_dataset; [done|done|left; split; [done|apply rtc_refl]|]. eapply Hv; [by eapply inside_at|apply rtc_refl].
  - apply inside_at in Hw as Hd.
    assert (K : forall a b, other_wrapper h d w w' a b -> (exists m, h !! a = Some (ODs m)) -> (exists m, h !! b = Some (ODs m)) -> a = b).
    { intros a b [[<- _]|[-> ->]] [m1 H1] [m2 H2]; [done|]. destruct (inside_self _ _ _ _ _ H1 Hw), (inside_self _ _ _ _ _ H2 Hw'). congruence. }
    intros a b a' b' Hab Hab' A1 A2 A3 A4. rewrite (K _ _ Hab A1 A3), (K _ _ Hab' A2 A4). done.
Qed.
Lemma wrapper_executes F ord ord' langs th n h t w w' d m h1 out : compiled th -> order_ok ord -> order_ok ord' -> tidy h d -> inside h w d m -> inside h w' d m ->
  execute F ord langs th n h t (Some w) = Ok (h1, out) -> exists n' h1', execute F ord' langs th n' h t (Some w') = Ok (h1', out).
Proof.
  intros Hc Ho Ho' Ht Hw Hw' H. destruct (wrapper_alike h d w w' m Ht Hw Hw') as [Ha H1].
  destruct (execute_kinds _ F ord ord' langs th n h h t w w' h1 out Hc Ho Ho' Ha H1) as (n' & h1' & E & _); [by right|done|]. eauto.
Qed.

(** ** Elements that print no object *)
Lemma careful_modest kind th h t : careful_template kind th t -> variant kind h h -> modest_template th h t.
Proof.
  intros Hc Hv x T l Hx HT Hl. eapply Forall_impl; [by eapply Hc|]. intros k Hk.
  assert (Hb : forall k v, binds h k v -> fits kind h k v v).
  { intros k' v (y & m & Hy & Hm). specialize (Hv y). rewrite Hy in Hv. inversion Hv as [? ? Hf|? Hn]; subst; [|by destruct (Hn m)].
    specialize (Hf k'). rewrite Hm in Hf. by inversion Hf. }
  assert (Hvals : forall p, ends_in kind (fun r => r = Free \/ r = Plain) p -> to_values h p).
  { intros p He k' Htl. destruct (He k' Htl) as [Hr Hd]. split; [done|]. intros c Hbd%Hb. unfold fits in Hbd.
    destruct Hr as [Hr|Hr]; rewrite Hr in Hbd; destruct Hbd as [H1 H2]; [by apply (H1 c)|by apply (H2 c)]. }
  destruct Hk as [s|s|s|s He|s H1 H2|s He|s|s He]; constructor; auto.
  - intros a f p Hs. apply Hvals. intros k' Htl. destruct (He a f p Hs k' Htl). auto.
  - intros d b Hs k' Htl. destruct (He d b Hs k' Htl) as [Hr Hd]. split; [done|]. intros c xs Hbd%Hb Hcol. unfold fits in Hbd.
    destruct Hr as [Hr|Hr]; rewrite Hr in Hbd; destruct Hbd as [H1 H2]; [by apply (H2 c)|]. by eapply dataset_no_collection; [apply H2|].
Qed.

(** ** A page *)
(** [hole_data] with its parts in XDatasetTS and its collection thread safe; one element in two XDatasetTS. *)
Definition safe_data (a b c : bytes) : heap :=
  {[ 1%positive := OTs (Some 5%positive); 5%positive := ODs {[ B "name" := VStr a; B "vip" := VBool true; B "rows" := VRef 2%positive ]};
     2%positive := OCollTS [Some 3%positive; Some 4%positive];
     3%positive := OTs (Some 6%positive); 6%positive := OTs (Some 7%positive); 7%positive := ODs {[ B "name" := VStr b ]};
     4%positive := ODs {[ B "name" := VStr c ]} ]}.
Definition safe_pairs (x y : loc) : Prop := (x, y) ∈ [(1, 1); (1, 5); (2, 2); (3, 3); (3, 7); (4, 4)]%positive.
Lemma safe_alike a b c : alike safe_pairs false (hole_data a b c) (safe_data a b c) /\ one_to_one safe_pairs (hole_data a b c) (safe_data a b c).
Proof.
  assert (HV : forall m : gmap bytes value, (forall k v l, m !! k = Some v -> v = VRef l -> safe_pairs l l) ->
    forall k, option_Forall2 (same_value safe_pairs) (m !! k) (m !! k)).
  { intros m Hm k. destruct (m !! k) as [v|] eqn:E; constructor. specialize (Hm k v). destruct v;
      try (left; split; [done|]; intros ? ?; discriminate). right. eexists _, _. split; [done|]. split; [done|]. by eapply Hm. }
  assert (I1 : inside (hole_data a b c) 1 1 {[ B "name" := VStr a; B "vip" := VBool true; B "rows" := VRef 2%positive ]}) by (apply in_ds; reflexivity).
  assert (J5 : inside (safe_data a b c) 5 5 {[ B "name" := VStr a; B "vip" := VBool true; B "rows" := VRef 2%positive ]}) by (apply in_ds; reflexivity).
  assert (J1 : inside (safe_data a b c) 1 5 {[ B "name" := VStr a; B "vip" := VBool true; B "rows" := VRef 2%positive ]}) by (eapply in_ts; [reflexivity|exact J5]).
  assert (I3 : inside (hole_data a b c) 3 3 {[ B "name" := VStr b ]}) by (apply in_ds; reflexivity).
  assert (J7 : inside (safe_data a b c) 7 7 {[ B "name" := VStr b ]}) by (apply in_ds; reflexivity).
  assert (J3 : inside (safe_data a b c) 3 7 {[ B "name" := VStr b ]}) by (eapply in_ts; [reflexivity|]; eapply in_ts; [reflexivity|exact J7]).
  assert (I4 : inside (hole_data a b c) 4 4 {[ B "name" := VStr c ]}) by (apply in_ds; reflexivity).
  assert (J4 : inside (safe_data a b c) 4 4 {[ B "name" := VStr c ]}) by (apply in_ds; reflexivity).
  assert (V1 : forall k, option_Forall2 (same_value safe_pairs) (({[ B "name" := VStr a; B "vip" := VBool true; B "rows" := VRef 2%positive ]} : gmap bytes value) !! k)
    (({[ B "name" := VStr a; B "vip" := VBool true; B "rows" := VRef 2%positive ]} : gmap bytes value) !! k)).
  { apply HV. intros k v l E ->. apply lookup_insert_Some in E as [[_ E]|[_ E]]; [discriminate|]. apply lookup_insert_Some in E as [[_ E]|[_ E]]; [discriminate|].
    apply lookup_singleton_Some in E as [_ E]. injection E as <-. unfold safe_pairs. set_solver. }
  assert (V2 : forall s, forall k, option_Forall2 (same_value safe_pairs) (({[ B "name" := VStr s ]} : gmap bytes value) !! k) (({[ B "name" := VStr s ]} : gmap bytes value) !! k)).
  { intros s. apply HV. intros k v l E ->. apply lookup_singleton_Some in E as [_ E]. discriminate. }
  split.
  - intros x y H. unfold safe_pairs in H. repeat (apply elem_of_cons in H as [H|H]; [injection H as -> ->|]); [| | | | | |by apply elem_of_nil in H].
    1-2: (eapply sc_dataset; [exact I1|first [exact J1|exact J5]|unfold safe_pairs; set_solver|exact V1]).
    2-3: (eapply sc_dataset; [exact I3|first [exact J3|exact J7]|unfold safe_pairs; set_solver|exact (V2 b)]).
    + eapply (sc_collection _ _ _ _ _ _ [Some 3%positive; Some 4%positive] [Some 3%positive; Some 4%positive]); [left; reflexivity|right; reflexivity| |done].
      repeat constructor; unfold safe_pairs; set_solver.
    + eapply sc_dataset; [exact I4|exact J4|unfold safe_pairs; set_solver|exact (V2 c)].
  - assert (K : forall x y, safe_pairs x y -> (exists m, safe_data a b c !! y = Some (ODs m)) -> (x, y) ∈ [(1, 5); (2, 2); (3, 7); (4, 4)]%positive).
    { intros x y H [m Hm]. unfold safe_pairs in H. repeat (apply elem_of_cons in H as [H|H]; [injection H as -> ->|]); try set_solver; discriminate Hm. }
    intros x y x' y' H H' _ _ E E'. apply K in H; [|done]. apply K in H'; [|done].
    repeat (apply elem_of_cons in H as [H|H]; [injection H as -> ->|]); try (by apply elem_of_nil in H);
    repeat (apply elem_of_cons in H' as [H'|H']; [injection H' as -> ->|]); try (by apply elem_of_nil in H'); split; intros E1; congruence.
Qed.
Lemma safe_case : modest_template (page hole_page).1 (hole_data (B "A") (B "b") (B "c")) (page hole_page).2 /\
  (forall a b c, alike safe_pairs false (hole_data a b c) (safe_data a b c) /\ one_to_one safe_pairs (hole_data a b c) (safe_data a b c)) /\
  forall F langs, text_of (run F ord0 langs hole_page (hole_data (B "A") (B "b") (B "c")) (Some 1%positive)) = Ok (B "<b>A</b>1b,2c,VIPA") /\
    text_of (run F ord0 langs hole_page (safe_data (B "A") (B "b") (B "c")) (Some 1%positive)) = Ok (B "<b>A</b>1b,2c,VIPA").
Proof.
  split; [|split].
  - destruct hole_conditions as (_ & _ & Hc & Hv). eapply careful_modest; [exact Hc|apply Hv].
  - apply safe_alike.
  - intros F langs. vm_compute. repeat split.
Qed.
(** The kind of a collection is visible when it is printed. *)
Lemma kind_shown : exists a b c, alike safe_pairs false (hole_data a b c) (safe_data a b c) /\ one_to_one safe_pairs (hole_data a b c) (safe_data a b c) /\
  forall F langs, let s := "{{rows}}"%string in
  text_of (run F ord0 langs s (hole_data a b c) (Some 1%positive)) = Ok (B "XDatasetCollection[0:xcore.XDataset{name:b} 1:xcore.XDataset{name:c} ]") /\
  text_of (run F ord0 langs s (safe_data a b c) (Some 1%positive)) = Ok (B "XDatasetCollectionTS[0:xcore.XDataset{name:b} 1:xcore.XDataset{name:c} ]").
Proof.
  exists (B "A"), (B "b"), (B "c"). split; [apply safe_alike|]. split; [apply safe_alike|]. intros F langs. vm_compute. repeat split.
Qed.

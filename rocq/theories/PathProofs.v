(** * Reading and writing through paths. *)
From Verif Require Import GoBase GoStrings GoStringsProofs DatasetModel DatasetSpec DatasetProofs DatasetProofs2 DatasetProofs4 DatasetProofs5 PathSpec.
Local Open Scope Z_scope.

Lemma gets_joined h l p r : p <> [] -> segments p -> gets h l (joined p) r <-> at_path h l p r.
Proof. intros Hne Hp. destruct p as [|s p]; [done|]. by apply get_segments. Qed.

Lemma denotes_unique s i j : denotes s i -> denotes s j -> i = j.
Proof. intros Hi%atoi_spec Hj%atoi_spec. congruence. Qed.

(** ** Composition *)
Lemma walk_compose h l p x : walk h l p x -> forall q r, q <> [] -> at_path h l (p ++ q) r <-> at_path h x q r.
Proof.
  induction 1 as [l|l d p x Hl Hp _ IH|l m k d p x Hl Hk Hd _ IH|l m k c xs s i d p x Hl Hk Hc Hs Hx _ IH]; intros q r Hq.
  - done.
  - rewrite <- IH by done. split; [|intros ?; by eapply ap_wrap]. inversion 1; simplify_eq. done.
  - rewrite <- IH by done. assert (Hne : p ++ q <> []) by (destruct p; done).
    cbn [app]. split; [|intros ?; by eapply ap_dataset].
    inversion 1 as [| | | |? ? ? c xs ? ? Hl' Hk' Hc'|? ? ? c xs ? ? ? Hl' Hk' Hc'|? ? ? c xs ? ? ? ? ? Hl' Hk' Hc'|? ? ? ? v Hl' Hk' Hv]; simplify_eq; try done.
    + by destruct (not_both _ _ _ Hd Hc').
    + by destruct (not_both _ _ _ Hd Hc').
    + by destruct (not_both _ _ _ Hd Hc').
    + destruct Hv as [Hv _]. by destruct (Hv d).
  - rewrite <- IH by done. assert (Hne : p ++ q <> []) by (destruct p; done).
    cbn [app]. split; [|intros ?; by eapply ap_in_element].
    inversion 1 as [| | |? ? ? ? ? ? Hl' Hk' Hd|? ? ? c' xs' ? ? Hl' Hk' Hc' Hi|? ? ? c' xs' ? ? ? Hl' Hk' Hc'|? ? ? c' xs' ? i' d' ? ? Hl' Hk' Hc' Hs' Hx' ? Hr|? ? ? ? v Hl' Hk' Hv]; simplify_eq; try done.
    + by destruct (not_both _ _ _ Hd Hc).
    + pose proof (collection_det _ _ _ _ Hc Hc'); subst. by destruct (Hi i d).
    + pose proof (collection_det _ _ _ _ Hc Hc'); subst. pose proof (denotes_unique _ _ _ Hs Hs'). assert (i = i') as <- by lia.
      by simplify_eq.
    + destruct Hv as [_ Hv]. by destruct (Hv c xs).
Qed.
Lemma walk_found h l p x : walk h l p x -> p <> [] -> at_path h l p (Some (VRef x)).
Proof.
  induction 1 as [l|l d p x Hl Hp _ IH|l m k d p x Hl Hk Hd Hw IH|l m k c xs s i d p x Hl Hk Hc Hs Hx Hw IH]; intros Hne; [done|..].
  - eapply ap_wrap; [done|]. by apply IH.
  - destruct p as [|j p].
    + inversion Hw; simplify_eq. rewrite <- Hk. by apply ap_last.
    + eapply ap_dataset; [done|done|done|done|]. by apply IH.
  - destruct p as [|j p].
    + inversion Hw; simplify_eq. by eapply ap_element.
    + eapply ap_in_element; [done|done|done|done|done|done|]. by apply IH.
Qed.
Lemma at_path_ne h l p r : at_path h l p r -> p <> [].
Proof. by induction 1. Qed.
Lemma found_walk h l p r : at_path h l p r -> forall x, r = Some (VRef x) -> dataset_at h x ->
  walk h l p x \/ literally h l p (VRef x).
Proof.
  induction 1 as [l d p r Hl Hp IH|l m k Hl|l m k p Hl Hk Hp|l m k d p r Hl Hk Hd Hne Hp IH|l m k c xs s p Hl Hk Hc Hi
    |l m k c xs s i d Hl Hk Hc Hs Hx|l m k c xs s i d p r Hl Hk Hc Hs Hx Hne Hp IH|l m k p v Hl Hk Hv Hne]; intros x Hr Hds; try done.
  - destruct (IH x Hr Hds) as [Hw|Hli]; [|right; by eapply li_wrap].
    left. eapply wk_wrap; [done| |done]. by eapply at_path_ne.
  - left. eapply wk_dataset; [done|done|done|constructor].
  - destruct (IH x Hr Hds) as [Hw|Hli]; [left; by eapply wk_dataset|].
    right. eapply (li_walk _ _ [k] d); [done| |done]. eapply wk_dataset; [done|done|done|constructor].
  - injection Hr as ->. left. eapply wk_element; [done|done|done|done|done|constructor].
  - destruct (IH x Hr Hds) as [Hw|Hli]; [left; by eapply wk_element|].
    right. eapply (li_walk _ _ [k; s] d); [done| |done]. eapply wk_element; [done|done|done|done|done|constructor].
  - right. by eapply li_here.
Qed.

(** ** Writing *)
(** Paths that do not mention the key. *)
Lemma differ_path_other t k h h' : differ_at t k h h' -> gt ∉ k -> forall l p r, at_path h l p r -> k ∉ p -> at_path h' l p r.
Proof.
  intros Hd Hg. destruct (differ_kinds _ _ _ _ Hd) as (Kd & Kc & Kt).
  induction 1 as [l d p r Hl _ IH|l m j Hl|l m j p Hl Hk Hp|l m j d p r Hl Hk Hds Hp _ IH|l m j c xs s p Hl Hk Hc Hi
    |l m j c xs s i d Hl Hk Hc Hs Hx|l m j c xs s i d p r Hl Hk Hc Hs Hx Hp _ IH|l m j p v Hl Hk Hv Hp]; intros Hn;
    rewrite ?not_elem_of_cons in Hn.
  - eapply ap_wrap; [by apply Kt|]. by apply IH.
  - destruct (differ_map _ _ _ _ _ _ Hd Hl) as (m' & Hm' & E). rewrite <- E by naive_solver. by apply ap_last.
  - destruct (differ_map _ _ _ _ _ _ Hd Hl) as (m' & Hm' & E). eapply ap_missing; [done| |done]. rewrite E; naive_solver.
  - destruct (differ_map _ _ _ _ _ _ Hd Hl) as (m' & Hm' & E).
    eapply ap_dataset; [done| |by apply Kd|done|apply IH; naive_solver]. rewrite E; naive_solver.
  - destruct (differ_map _ _ _ _ _ _ Hd Hl) as (m' & Hm' & E).
    eapply ap_no_index; [done| |by apply Kc|done]. rewrite E; naive_solver.
  - destruct (differ_map _ _ _ _ _ _ Hd Hl) as (m' & Hm' & E).
    eapply ap_element; [done| |by apply Kc|done|done]. rewrite E; naive_solver.
  - destruct (differ_map _ _ _ _ _ _ Hd Hl) as (m' & Hm' & E).
    eapply ap_in_element; [done| |by apply Kc|done|done|done|apply IH; naive_solver]. rewrite E; naive_solver.
  - destruct (differ_map _ _ _ _ _ _ Hd Hl) as (m' & Hm' & E). rewrite <- E.
    + eapply ap_literal; [done| |by apply (differ_plain _ _ _ _ _ Hd)|done]. rewrite E; naive_solver.
    + intros <-. apply Hg. destruct p as [|s p]; [done|]. apply elem_of_app. right. cbn [map concat app]. left.
Qed.
Lemma set_differ n h l k v h' : dset n h l k v = Ok h' -> exists t m, inside h l t m /\ differ_at t k h h'.
Proof.
  intros (t & m & Hi & ->)%dset_inside. exists t, m. split; [done|]. exists m, (<[k := v]> m). pose proof (inside_at _ _ _ _ Hi).
  split_and!; [done|by rewrite lookup_insert|intros; by rewrite lookup_insert_ne|intros; by rewrite lookup_insert_ne].
Qed.
Lemma del_differ n h l k h' : ddel n h l k = Ok h' -> exists t m, inside h l t m /\ differ_at t k h h'.
Proof.
  intros (t & m & Hi & ->)%ddel_inside. exists t, m. split; [done|]. exists m, (delete k m). pose proof (inside_at _ _ _ _ Hi).
  split_and!; [done|by rewrite lookup_insert|intros; by rewrite lookup_insert_ne|intros; by rewrite lookup_delete_ne].
Qed.
Lemma differ_elsewhere t k h h' y p r : differ_at t k h h' -> gt ∉ k -> p <> [] -> segments p -> k ∉ p ->
  gets h' y (joined p) r <-> gets h y (joined p) r.
Proof.
  intros Hd Hg Hne Hp Hk. rewrite !gets_joined by done. split; intros H.
  - eapply differ_path_other; [by apply differ_sym|done|done|done].
  - by eapply differ_path_other.
Qed.

(** Walks after a change. *)
Lemma differ_walk t k h h' : differ_at t k h h' -> forall l p x, walk h l p x -> k ∉ p -> walk h' l p x.
Proof.
  intros Hd. destruct (differ_kinds _ _ _ _ Hd) as (Kd & Kc & Kt).
  induction 1 as [l|l d p x Hl Hp _ IH|l m j d p x Hl Hk Hds _ IH|l m j c xs s i d p x Hl Hk Hc Hs Hx _ IH]; intros Hn;
    rewrite ?not_elem_of_cons in Hn.
  - constructor.
  - eapply wk_wrap; [by apply Kt|done|by apply IH].
  - destruct (differ_map _ _ _ _ _ _ Hd Hl) as (m' & Hm' & E).
    eapply wk_dataset; [done| |by apply Kd|apply IH; naive_solver]. rewrite E; naive_solver.
  - destruct (differ_map _ _ _ _ _ _ Hd Hl) as (m' & Hm' & E).
    eapply wk_element; [done| |by apply Kc|done|done|apply IH; naive_solver]. rewrite E; naive_solver.
Qed.
Lemma walk_reach h l p x : walk h l p x -> rtc (child h) l x.
Proof.
  induction 1 as [l|l d p x Hl Hp _ IH|l m j d p x Hl Hk Hds _ IH|l m j c xs s i d p x Hl Hk Hc Hs Hx _ IH].
  - constructor.
  - eapply rtc_l; [by eapply child_ts|done].
  - eapply rtc_l; [by eapply child_ds|done].
  - eapply rtc_l; [by eapply child_ds|]. eapply rtc_l; [|done]. eapply child_coll; [done|]. by eapply elem_of_list_lookup_2.
Qed.
Lemma inside_reach h l t m : inside h l t m -> rtc (child h) l t.
Proof. induction 1 as [l m H|l d t m H _ IH]; [constructor|]. eapply rtc_l; [by eapply child_ts|done]. Qed.
Lemma differ_walk_acyclic t k h h' : differ_at t k h h' -> forall l p x, walk h l p x ->
  ~ tc (child h) t x -> walk h' l p x.
Proof.
  intros Hd. destruct (differ_kinds _ _ _ _ Hd) as (Kd & Kc & Kt).
  assert (Hsame : forall l m, h !! l = Some (ODs m) -> l <> t -> h' !! l = Some (ODs m)).
  { destruct Hd as (? & ? & ? & ? & Hx & _). intros l m Hl Hne. by rewrite Hx. }
  induction 1 as [l|l d p x Hl Hp Hw IH|l m j d p x Hl Hk Hds Hw IH|l m j c xs s i d p x Hl Hk Hc Hs Hx Hw IH]; intros Hn.
  - constructor.
  - eapply wk_wrap; [by apply Kt|done|by apply IH].
  - assert (Hlt : l <> t).
    { intros ->. apply Hn. eapply tc_rtc_r; [apply tc_once; by eapply child_ds|]. by eapply walk_reach. }
    eapply wk_dataset; [by apply Hsame|done|by apply Kd|by apply IH].
  - assert (Hlt : l <> t).
    { intros ->. apply Hn. eapply tc_l; [by eapply child_ds|]. eapply tc_rtc_r; [|by eapply walk_reach].
      apply tc_once. eapply child_coll; [done|]. by eapply elem_of_list_lookup_2. }
    eapply wk_element; [by apply Hsame|done|by apply Kc|done|done|by apply IH].
Qed.
(** [x] does not contain itself, directly or not. *)
Lemma differ_walk_once t m k h h' l p x : differ_at t k h h' -> inside h x t m -> walk h l p x ->
  k ∉ p \/ ~ tc (child h) x x -> walk h' l p x.
Proof.
  intros Hd Hi Hw [Hk|Hc]; [by eapply differ_walk|]. pose proof (inside_reach _ _ _ _ Hi) as Hr.
  eapply differ_walk_acyclic; [done|done|]. intros Ht. apply Hc. by eapply tc_rtc_l.
Qed.

(** ** Writing at the end of a walk *)
Lemma walk_compose_gets h l p x q r : walk h l p x -> segments p -> segments q -> q <> [] ->
  gets h l (joined (p ++ q)) r <-> gets h x (joined q) r.
Proof.
  intros Hw Hp Hq Hne. rewrite !gets_joined; [by apply walk_compose|done|done|by destruct p|by apply Forall_app].
Qed.
Lemma segments_one k : gt ∉ k -> segments [k].
Proof. intros Hk. by repeat constructor. Qed.
Lemma set_seen n h l p x k v h' : walk h l p x -> segments p -> gt ∉ k -> dset n h x k v = Ok h' ->
  k ∉ p \/ ~ tc (child h) x x -> gets h' l (joined (p ++ [k])) (Some v).
Proof.
  intros Hw Hp Hk Hs Hc. pose proof Hs as Hs'. apply set_differ in Hs' as (t & m & Hi & Hd).
  assert (Hw' : walk h' l p x) by (by eapply differ_walk_once).
  apply (walk_compose_gets _ _ _ _ _ _ Hw' Hp (segments_one _ Hk)); [done|].
  apply dset_inside in Hs as (t' & m' & Hi' & ->). rewrite gets_joined by (done || by apply segments_one).
  rewrite (inside_path _ _ t' (<[k := v]> m')); [|by eapply inside_changed].
  rewrite <- (lookup_insert m' k v). apply ap_last. by rewrite lookup_insert.
Qed.
Lemma del_seen n h l p x k h' : walk h l p x -> segments p -> gt ∉ k -> ddel n h x k = Ok h' ->
  k ∉ p \/ ~ tc (child h) x x -> gets h' l (joined (p ++ [k])) None.
Proof.
  intros Hw Hp Hk Hs Hc. pose proof Hs as Hs'. apply del_differ in Hs' as (t & m & Hi & Hd).
  assert (Hw' : walk h' l p x) by (by eapply differ_walk_once).
  apply (walk_compose_gets _ _ _ _ _ _ Hw' Hp (segments_one _ Hk)); [done|].
  apply ddel_inside in Hs as (t' & m' & Hi' & ->). rewrite gets_joined by (done || by apply segments_one).
  rewrite (inside_path _ _ t' (delete k m')); [|by eapply inside_changed].
  rewrite <- (lookup_delete m' k). apply ap_last. by rewrite lookup_insert.
Qed.
Lemma set_elsewhere n h l k v h' y p r : dset n h l k v = Ok h' -> gt ∉ k -> p <> [] -> segments p -> k ∉ p ->
  gets h' y (joined p) r <-> gets h y (joined p) r.
Proof. intros (t & m & _ & Hd)%set_differ. by eapply differ_elsewhere. Qed.
Lemma del_elsewhere n h l k h' y p r : ddel n h l k = Ok h' -> gt ∉ k -> p <> [] -> segments p -> k ∉ p ->
  gets h' y (joined p) r <-> gets h y (joined p) r.
Proof. intros (t & m & _ & Hd)%del_differ. by eapply differ_elsewhere. Qed.

(** ** Collections that grow at the end *)
(** [h'] is [h] but for collections, which may have more elements at the end. *)
Definition longer (h h' : heap) : Prop :=
  (forall l m, h !! l = Some (ODs m) -> h' !! l = Some (ODs m)) /\
  (forall l d, h !! l = Some (OTs d) -> h' !! l = Some (OTs d)) /\
  (forall x xs, collection_at h x xs -> exists more, collection_at h' x (xs ++ more)) /\
  (forall v, plain h v -> plain h' v).
Lemma longer_found h h' : longer h h' -> forall l p r, at_path h l p r -> forall v, r = Some v -> at_path h' l p r.
Proof.
  intros (Kd & Kt & Kc & Kp).
  assert (Kdat : forall d, dataset_at h d -> dataset_at h' d).
  { intros d [(m & Hm)|(o & Ho)]; [left; exists m; by apply Kd|right; exists o; by apply Kt]. }
  induction 1 as [l d p r Hl Hp IH|l m k Hl|l m k p Hl Hk Hp|l m k d p r Hl Hk Hd Hne Hp IH|l m k e xs s p Hl Hk Hc Hi
    |l m k e xs s i d Hl Hk Hc Hs Hx|l m k e xs s i d p r Hl Hk Hc Hs Hx Hne Hp IH|l m k p w Hl Hk Hv Hne]; intros v Hr; try done.
  - eapply ap_wrap; [by apply Kt|by eapply IH].
  - by apply ap_last, Kd.
  - eapply ap_dataset; [by apply Kd|done|by apply Kdat|done|by eapply IH].
  - destruct (Kc _ _ Hc) as (more & Hc'). eapply ap_element; [by apply Kd|done|done|done|]. by apply lookup_app_l_Some.
  - destruct (Kc _ _ Hc) as (more & Hc'). eapply ap_in_element; [by apply Kd|done|done|done| |done|by eapply IH].
    by apply lookup_app_l_Some.
  - eapply ap_literal; [by apply Kd|done|by apply Kp|done].
Qed.

Lemma plain_kinds h h' v : (forall d, dataset_at h' d -> dataset_at h d) ->
  (forall c xs, collection_at h' c xs -> exists ys, collection_at h c ys) -> plain h v -> plain h' v.
Proof.
  intros Hd Hc [P1 P2]. split.
  - intros d -> Hx. by apply (P1 d), Hd.
  - intros c xs -> Hx. apply Hc in Hx as (ys & Hy). by apply (P2 c ys).
Qed.
(** One collection replaced by another with a common beginning. *)
Lemma set_elements_cases h c xs ys : collection_at h c xs ->
  (forall x, x <> c -> set_elements h c ys !! x = h !! x) /\
  ((h !! c = Some (OColl xs) /\ set_elements h c ys !! c = Some (OColl ys)) \/
   (h !! c = Some (OCollTS xs) /\ set_elements h c ys !! c = Some (OCollTS ys))).
Proof.
  intros H. split; [intros x Hx; by apply set_elements_other|]. unfold set_elements.
  destruct H as [E|E]; rewrite E; [left|right]; by rewrite lookup_insert.
Qed.
Lemma swap_longer h h' c xs more : (forall x, x <> c -> h' !! x = h !! x) ->
  ((h !! c = Some (OColl xs) /\ h' !! c = Some (OColl (xs ++ more))) \/
   (h !! c = Some (OCollTS xs) /\ h' !! c = Some (OCollTS (xs ++ more)))) -> longer h h'.
Proof.
  intros Ho Hc. split_and!.
  - intros l m Hl. rewrite Ho; [done|]. intros ->. destruct Hc as [[E _]|[E _]]; congruence.
  - intros l d Hl. rewrite Ho; [done|]. intros ->. destruct Hc as [[E _]|[E _]]; congruence.
  - intros x ys Hx. destruct (decide (x = c)) as [->|Hne].
    + exists more. unfold collection_at in *. destruct Hc as [[E E']|[E E']]; destruct Hx as [Hx|Hx]; simplify_eq; naive_solver.
    + exists []. unfold collection_at in *. by rewrite app_nil_r, Ho.
  - intros v. apply plain_kinds.
    + intros d Hd. unfold dataset_at in *. rewrite Ho in Hd; [done|]. intros ->.
      destruct Hc as [[_ E]|[_ E]]; destruct Hd as [[? Hd]|[? Hd]]; congruence.
    + intros x ys Hx. destruct (decide (x = c)) as [->|Hne].
      * exists xs. unfold collection_at. naive_solver.
      * exists ys. unfold collection_at in *. by rewrite <- Ho.
Qed.
Lemma push_found h c d h' l key v : cpush h c d = Ok h' -> gets h l key (Some v) -> gets h' l key (Some v).
Proof.
  unfold cpush. destruct (elements h c) as [xs|] eqn:E; [|done]. intros [= <-]. apply elements_some in E.
  rewrite !gets_path. intros H. eapply longer_found; [|done|done].
  destruct (set_elements_cases _ _ _ (xs ++ [d]) E). by eapply swap_longer.
Qed.
Lemma pop_found h c d h' l key v : cpop h c = Ok (h', d) -> gets h' l key (Some v) -> gets h l key (Some v).
Proof.
  unfold cpop. destruct (elements h c) as [xs|] eqn:E; [|done]. case_bool_decide; [done|].
  destruct (xs !! _); [|done]. intros [= <- _]. apply elements_some in E.
  rewrite !gets_path. intros H1. eapply longer_found; [|done|done].
  destruct (set_elements_cases _ _ _ (take (Z.to_nat (Z.of_nat (length xs) - 1)) xs) E) as [H2 H3].
  eapply (swap_longer _ _ c (take (Z.to_nat (Z.of_nat (length xs) - 1)) xs) (drop (Z.to_nat (Z.of_nat (length xs) - 1)) xs)).
  - intros x Hx. by rewrite H2.
  - rewrite take_drop. naive_solver.
Qed.

(** ** The same about texts *)
Lemma walk_found_gets h l p x : walk h l p x -> segments p -> p <> [] -> gets h l (joined p) (Some (VRef x)).
Proof. intros Hw Hp Hne. apply gets_joined; [done|done|]. by apply walk_found. Qed.
Lemma found_walk_gets h l p x : segments p -> p <> [] -> gets h l (joined p) (Some (VRef x)) -> dataset_at h x ->
  walk h l p x \/ literally h l p (VRef x).
Proof. intros Hp Hne Hg%gets_joined Hx; [by eapply found_walk|done|done]. Qed.
Lemma literal_stops : exists h l x v, gets h l (B "a>b") (Some (VRef x)) /\ dataset_at h x /\
  gets h x (B "k") (Some v) /\ gets h l (B "a>b>k") None.
Proof.
  exists (<[1%positive := ODs (<[B "a" := VStr (B "v")]> (<[B "a>b" := VRef 2]> ∅))]> (<[2%positive := ODs (<[B "k" := VBool true]> ∅)]> ∅)),
    1%positive, 2%positive, (VBool true).
  split_and!; [exists 9%nat; vm_compute; reflexivity| |exists 9%nat; vm_compute; reflexivity|exists 9%nat; vm_compute; reflexivity].
  left. eexists. reflexivity.
Qed.
Lemma cycle_cuts : exists n h l x v h', gets h l (B "a") (Some (VRef x)) /\ dataset_at h x /\
  dset n h x (B "a") v = Ok h' /\ gets h' l (B "a>a") None.
Proof.
  exists 9%nat, (<[1%positive := ODs (<[B "a" := VRef 1]> ∅)]> ∅), 1%positive, 1%positive, (VBool true),
    (<[1%positive := ODs (<[B "a" := VBool true]> (<[B "a" := VRef 1]> ∅))]> (<[1%positive := ODs (<[B "a" := VRef 1]> ∅)]> ∅)).
  split_and!; [exists 9%nat; vm_compute; reflexivity| |reflexivity|exists 9%nat; vm_compute; reflexivity].
  left. eexists. reflexivity.
Qed.
Lemma C104_one : denotes (B "1") (Z.of_nat 1).
Proof. by apply atoi_spec. Qed.

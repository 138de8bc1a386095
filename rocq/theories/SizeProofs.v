(** * Proofs for C128: the bound. *)
From Verif Require Import GoBase GoStrings DatasetModel LangModel DatasetSpec DatasetProofs2 TemplateModel TemplateSpec RenderSpec RenderProofs RenderProofs4 RenderProofs5 RenderProofs6 SizeSpec.
Local Open Scope nat_scope.

Lemma path_stored h l p v : at_path h l p (Some v) -> stored_in h v.
Proof.
  intros H. remember (Some v) as r eqn:E. induction H as [l d p r Hl Hp IH|l m k Hl|l m k p Hl Hk Hn|l m k d p r Hl Hk Hd Hn Hp IH|l m k c xs s p Hl Hk Hc Hi
    |l m k c xs s i d Hl Hk Hc Hs Hi|l m k c xs s i d p r Hl Hk Hc Hs Hi Hn Hp IH|l m k p w Hl Hk Hw Hn]; try discriminate E; try exact (IH E).
  - left. by exists l, m, k.
  - injection E as <-. right. exists c, xs, d. split; [exact Hc|]. split; [by eapply elem_of_list_lookup_2|done].
  - left. by exists l, m, (k ++ concat (map (cons ">"%char) p)).
Qed.
Lemma found_stored h sc key v : found h sc key (Some v) -> stored_in h v.
Proof.
  intros H. remember (Some v) as r eqn:E. induction H as [key|d sc key w Ha|d sc key r Ha Hf IH]; [discriminate| |exact (IH E)].
  injection E as ->. destruct Ha as (s & segs & _ & Hp). exact (path_stored _ _ _ _ Hp).
Qed.

Section Bound.
  Context (F : golib) (ord : heap -> gmap bytes value -> list (bytes * value)) (th : theap) (lg : option lang) (rank : loc -> nat).
  Context (h0 : heap) (M R V : nat) (HM : 1 <= M) (HR : 1 <= R).
  Context (Hrank : ranked th rank) (Ht : small_templates th M V) (Hl : forall g s v, lg = Some g -> l_entries g !! s = Some v -> length v <= V) (Hd : small_data F ord h0 R V).
  Definition most (n : nat) : nat := V * (M * R) ^ n.
  Lemma most_mono a b : a <= b -> most a <= most b.
  Proof using HM HR. intros H. unfold most. apply Nat.mul_le_mono_l, Nat.pow_le_mono_r; nia. Qed.
  Lemma most_V n : V <= most n.
  Proof using HM HR. unfold most. assert (1 <= (M * R) ^ n) by (apply Nat.neq_0_lt_0, Nat.pow_nonzero; nia). nia. Qed.
  Definition calls_down (t : loc) (k : token) : Prop := forall n x, may_call k n -> visible th t n (Some x) -> rank x < rank t.
  Lemma most_R n : most n <= R * most n.
  Proof using HR HM. pose proof HM. nia. Qed.
  Lemma lower_page t x (o : bytes) : rank x < rank t -> length o <= most (S (rank x)) -> length o <= R * most (rank t).
  Proof using HM HR. intros Hx Ho. etransitivity; [exact Ho|]. etransitivity; [|apply most_R]. apply most_mono. lia. Qed.
  Lemma field_small h sc key s : counted h0 h -> field_text F ord h sc key s -> length s <= V.
  Proof using Hd HM HR.
    intros Hc [Hf|Hf|v w Hf Hv Hp]; cbn; try lia. exact (proj1 (proj2 Hd) h v w Hc (found_stored _ _ _ _ Hf) Hp).
  Qed.
  Lemma bound :
    (forall h sc t h' out, renders F ord th lg h sc t h' out -> counted h0 h -> length out <= most (S (rank t))) /\
    (forall h sc t l h' out, renders_all F ord th lg h sc t l h' out -> counted h0 h -> (forall k, k ∈ l -> calls_down t k) -> (forall s, TText s ∈ l -> length s <= V) ->
      length out <= length l * (R * most (rank t))) /\
    (forall h sc q h' out, renders_opt F ord th lg h sc q h' out -> counted h0 h -> forall r, (forall x, q = Some x -> rank x < r) -> length out <= R * most r) /\
    (forall h sc t k h' out, renders_one F ord th lg h sc t k h' out -> counted h0 h -> calls_down t k -> (forall s, k = TText s -> length s <= V) -> length out <= R * most (rank t)) /\
    (forall h sc t b x i n ds h' out, loops F ord th lg h sc t b x i n ds h' out -> counted h0 h -> rank x < rank t ->
      (forall w y, visible th t (dotted b w) (Some y) -> rank y < rank t) -> forall c xs, collection_at h c xs -> drop i xs = ds -> length out <= length ds * most (rank t)).
  Proof using All.
    assert (HV : forall n, V <= R * most n) by (intros n; etransitivity; [apply (most_V n)|apply most_R]).
    assert (Helse : forall (t x : loc) (q : option loc) r, (forall y, q = Some y -> rank y < r) -> rank x < r -> rank (or_else q x) < r).
    { intros t x [y|] r Hq Hx; [by apply Hq|exact Hx]. }
    destruct (renders_counted F ord th lg) as (C1 & C2 & C3 & C4 & C5).
    apply renders_mutind.
    - intros h sc t T l h' out HT Hroot _ IH Hc. pose proof (Ht t T HT) as Hs. rewrite Hroot in Hs. destruct Hs as [Hlen Htext]. rewrite map_length in Hlen.
      etransitivity; [apply IH; [exact Hc| |]|].
      + intros k Hk n x Hn Hv. exact (Hrank t T l k n x HT Hroot Hk Hn Hv).
      + intros s Hs. apply (Htext (stored (TText s))); [by apply elem_of_list_fmap_1|done].
      + unfold most. cbn [Nat.pow]. nia.
    - intros h sc t T HT Hroot _. pose proof (Ht t T HT) as Hs. rewrite Hroot in Hs. etransitivity; [exact Hs|apply most_V].
    - intros h sc t _ _ _. cbn. lia.
    - intros h sc t k l h1 h2 a b Ho IH1 _ IH2 Hc Hk Hs. rewrite app_length. cbn [length].
      assert (length a <= R * most (rank t)). { apply IH1; [exact Hc|apply Hk; by left|]. intros s ->. apply Hs. by left. }
      assert (length b <= length l * (R * most (rank t))).
      { apply IH2; [exact (counted_trans _ _ _ Hc (C4 _ _ _ _ _ _ Ho))|..]; intros; [apply Hk|apply Hs]; by right. }
      lia.
    - intros h sc _ r _. cbn. lia.
    - intros h sc t h' out _ IH Hc r Hr. specialize (Hr t eq_refl). etransitivity; [exact (IH Hc)|]. etransitivity; [|apply most_R]. apply most_mono. lia.
    - intros h sc t s _ _ Hs. etransitivity; [apply Hs; done|apply HV].
    - intros h sc t s _ _ _. cbn. lia.
    - intros h sc t s g v Hg Hv _ _ _. etransitivity; [exact (Hl g s v Hg Hv)|apply HV].
    - intros h sc t s _ _ _ _. cbn. lia.
    - intros h sc t s out Hf Hc _ _. etransitivity; [exact (field_small _ _ _ _ Hc Hf)|apply HV].
    - intros h sc d t s out _ Hdump Hc _ _. etransitivity; [exact (proj2 (proj2 Hd) h d out Hc Hdump)|apply HV].
    - intros h sc t s _ _ _ _ _. cbn. lia.
    - intros h sc t s a f p v r h' out Hs Hf Hch _ IH Hc Hk _. apply IH; [exact Hc|]. intros x ->. apply choose_visible in Hch as (n & Hn & Hv).
      apply elem_of_cons in Hn as [->|Hn]; [exact (Hk _ _ (mc_select s a f p v Hs) Hv)|]. apply elem_of_list_singleton in Hn as ->.
      apply (Hk p x); [|exact Hv]. rewrite <- (app_nil_r p) at 1. exact (mc_select s a f p [] Hs).
    - intros h sc t s a f x d h' out Hs Hv _ _ _ IH Hc Hk _. apply (lower_page t x); [|exact (IH Hc)]. exact (Hk a x (mc_ref s a [f] Hs ltac:(done)) Hv).
    - intros h sc t s a f x r h' out Hs Hv _ _ _ IH Hc Hk _. apply (lower_page t x); [|exact (IH Hc)]. exact (Hk a x (mc_ref s a [f] Hs ltac:(done)) Hv).
    - intros h sc t s a ws x h' out Hs H1 H2 Hv _ IH Hc Hk _. apply (lower_page t x); [|exact (IH Hc)]. exact (Hk a x (mc_ref s a ws Hs H2) Hv).
    - intros h sc t s a ws _ _ _ _ _ _. cbn. lia.
    - intros h sc t s d b x c xs h' out Hs Hv Hf Hcol _ _ IH Hc Hk _. etransitivity; [apply (IH Hc) with (c := c) (xs := xs)|].
      + exact (Hk b x (mc_range s d b Hs) Hv).
      + intros w y Hy. exact (Hk _ y (mc_range_choice s d b w Hs) Hy).
      + exact Hcol.
      + reflexivity.
      + apply Nat.mul_le_mono_r. apply (proj1 Hd c xs). by apply (counted_collection h0 h c xs Hc).
    - intros h sc t s d b x r q h' out Hs Hv _ _ Hq _ IH Hc Hk _. apply (lower_page t (or_else q x)); [|exact (IH Hc)]. apply (Helse t).
      + intros y ->. exact (Hk _ y (mc_range_choice s d b _ Hs) Hq).
      + exact (Hk b x (mc_range s d b Hs) Hv).
    - intros h sc t s d b _ _ _ _ _. cbn. lia.
    - intros h sc t s d b x v q h' out u Hs Hv _ _ Hq _ IH _ Hc Hk _. apply (lower_page t (or_else q x)); [|exact (IH Hc)]. apply (Helse t).
      + intros y ->. exact (Hk _ y (mc_cond_value s d b _ Hs) Hq).
      + exact (Hk b x (mc_cond s d b Hs) Hv).
    - intros h sc t s d b x v w q h' out u Hs Hv _ _ _ _ _ Hq _ IH _ Hc Hk _. apply (lower_page t (or_else q x)); [|exact (IH Hc)]. apply (Helse t).
      + intros y ->. exact (Hk _ y (mc_cond_value s d b _ Hs) Hq).
      + exact (Hk b x (mc_cond s d b Hs) Hv).
    - intros h sc t s d b v w _ _ _ _ _ _ _ _ _. cbn. lia.
    - intros h sc t s d b r p q h' out Hs Hp _ _ Hq _ IH Hc Hk _. apply IH; [exact Hc|]. intros x E. destruct q as [y|].
      + injection E as ->. exact (Hk _ x (mc_cond_value s d b _ Hs) Hq).
      + subst p. exact (Hk b x (mc_cond s d b Hs) Hp).
    - intros h sc t b x i n _ _ _ c xs _ _. cbn. lia.
    - intros h sc t b x i n d ds q h1 h2 h3 o1 o2 Hq Hcount Hr IH1 _ IH2 Hc Hx Hall c xs Hcol Hdrop.
      assert (Hi : xs !! i = Some (Some d)). { rewrite <- (Nat.add_0_r i), <- lookup_drop, Hdrop. reflexivity. }
      pose proof (counts_counted _ _ _ _ _ _ Hcount Hcol Hi) as Hc1. pose proof (counted_trans _ _ _ Hc Hc1) as Hc1'.
      pose proof (C1 _ _ _ _ _ Hr) as Hc2. pose proof (counted_trans _ _ _ Hc1' Hc2) as Hc2'.
      assert (length o1 <= most (rank t)).
      { etransitivity; [exact (IH1 Hc1')|]. apply most_mono. apply (Helse t); [|exact Hx]. intros y ->. apply choose_visible in Hq as (w & Hw & Hv).
        assert (exists u, w = dotted b u) as [u ->].
        { unfold element_names in Hw. repeat (apply elem_of_app in Hw as [Hw|Hw]).
          - apply elem_of_list_singleton in Hw. eauto.
          - destruct (decide (i = 0)); [apply elem_of_list_singleton in Hw; eauto|by apply elem_of_nil in Hw].
          - destruct (decide (S i = n)); [apply elem_of_list_singleton in Hw; eauto|by apply elem_of_nil in Hw].
          - destruct (Nat.even i); [apply elem_of_list_singleton in Hw; eauto|by apply elem_of_nil in Hw]. }
        exact (Hall u y Hv). }
      assert (length o2 <= length ds * most (rank t)).
      { apply (IH2 Hc2' Hx Hall c xs).
        - apply (counted_collection h1 h2 c xs Hc2), (counted_collection h h1 c xs Hc1), Hcol.
        - change (S i) with (1 + i). rewrite Nat.add_comm, <- drop_drop, Hdrop. reflexivity. }
      rewrite app_length. cbn [length]. lia.
  Qed.
End Bound.

Lemma execute_bound F ord langs th rank h t d n h' out M R V : compiled th -> ranked th rank -> 1 <= M -> 1 <= R -> small_templates th M V -> small_languages langs V ->
  small_data F ord h R V -> execute F ord langs th n h t (Some d) = Ok (h', out) -> length out <= V * (M * R) ^ S (rank t).
Proof.
  intros Hc Hr HM HR Ht Hl Hd E. destruct (proj1 (execute_meaning F ord langs th h t d h' out Hc) (ex_intro _ n E)) as (lg & (r & _ & Hlg) & Hren).
  apply (proj1 (bound F ord th lg rank h M R V HM HR Hr Ht ltac:(
    intros g s v Hg Hs; destruct Hlg as [(k & _ & ->)|[_ ->]]; [exact (Hl k g s v Hg Hs)|discriminate Hg]) Hd) h [d] t h' out Hren). apply counted_refl.
Qed.

Section Nil.
  Context (th : theap) (rank : loc -> nat) (M V : nat) (HM : 1 <= M) (Hrank : ranked th rank) (Ht : small_templates th M V).
  Lemma nil_most_V n : V <= V * M ^ n.
  Proof using HM. assert (1 <= M ^ n) by (apply Nat.neq_0_lt_0, Nat.pow_nonzero; lia). nia. Qed.
  Lemma nil_lower a b (o : bytes) : a < b -> length o <= V * M ^ S a -> length o <= V * M ^ b.
  Proof using HM. intros Hab Ho. etransitivity; [exact Ho|]. apply Nat.mul_le_mono_l, Nat.pow_le_mono_r; lia. Qed.
  Lemma nil_bound t r : nil_renders th t r -> forall out, r = Some out -> length out <= V * M ^ S (rank t).
  Proof using All.
    revert t r. refine (nil_renders_mind th
      (fun t r => forall out, r = Some out -> length out <= V * M ^ S (rank t))
      (fun t l r => (forall k, k ∈ l -> calls_down th rank t k) -> (forall s, TText s ∈ l -> length s <= V) -> forall out, r = Some out -> length out <= length l * (V * M ^ rank t))
      (fun t k r => calls_down th rank t k -> (forall s, k = TText s -> length s <= V) -> forall out, r = Some out -> length out <= V * M ^ rank t) _ _ _ _ _ _ _ _ _ _ _ _ _ _ _ _ _ _).
    - intros t T l r HT Hroot _ IH out ->. pose proof (Ht t T HT) as Hs. rewrite Hroot in Hs. destruct Hs as [Hlen Htext]. rewrite map_length in Hlen.
      etransitivity; [apply (IH) with (out := out); [| |done]|].
      + intros k Hk n x Hn Hv. exact (Hrank t T l k n x HT Hroot Hk Hn Hv).
      + intros s Hs. apply (Htext (stored (TText s))); [by apply elem_of_list_fmap_1|done].
      + cbn [Nat.pow]. nia.
    - intros t T HT Hroot out [= <-]. pose proof (Ht t T HT) as Hs. rewrite Hroot in Hs. etransitivity; [exact Hs|apply nil_most_V].
    - intros t _ _ out [= <-]. cbn. lia.
    - intros t k l a b _ IH1 _ IH2 Hk Hs out [= <-]. rewrite app_length. cbn [length].
      assert (length a <= V * M ^ rank t) by (apply (IH1); [apply Hk; by left|intros s ->; apply Hs; by left|done]).
      assert (length b <= length l * (V * M ^ rank t)) by (apply IH2; [intros k' H'; apply Hk; by right|intros s H'; apply Hs; by right|done]). lia.
    - discriminate.
    - discriminate.
    - intros t s _ Hs out [= <-]. etransitivity; [by apply Hs|apply nil_most_V].
    - intros t s _ _ out [= <-]. cbn. lia.
    - intros t s _ _ out [= <-]. cbn. lia.
    - intros t s _ _ out [= <-]. cbn. lia.
    - intros t s _ _ out [= <-]. cbn. lia.
    - intros t s d b r _ _ _ _ out [= <-]. cbn. lia.
    - intros t s a ws x r Hs H1 H2 Hv _ IH Hk _ out E. apply (nil_lower (rank x)); [|exact (IH out E)]. exact (Hk a x (mc_ref s a ws Hs H2) Hv).
    - intros t s a ws _ _ _ _ _ out [= <-]. cbn. lia.
    - discriminate.
    - discriminate.
    - intros t s d b p q x r Hs Hp Hq Hx _ IH Hk _ out E. apply (nil_lower (rank x)); [|exact (IH out E)]. destruct q as [y|].
      + injection Hx as ->. exact (Hk _ x (mc_cond_value s d b _ Hs) Hq).
      + subst p. exact (Hk b x (mc_cond s d b Hs) Hp).
    - intros t s d b _ _ _ _ _ out [= <-]. cbn. lia.
  Qed.
End Nil.
Lemma execute_nil_bound F ord langs th rank h t n h' out M V : compiled th -> closed th -> ranked th rank -> 1 <= M -> small_templates th M V ->
  execute F ord langs th n h t None = Ok (h', out) -> length out <= V * M ^ S (rank t).
Proof.
  intros Hc Hcl Hr HM Ht E. destruct (proj1 (execute_nil F ord langs th h t h' out Hc Hcl) (ex_intro _ n E)) as [_ Hn].
  exact (nil_bound th rank M V HM Hr Ht t (Some out) Hn out eq_refl).
Qed.

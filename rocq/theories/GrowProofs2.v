(** * Executions while the data grow (C119): loops. *)
From Verif Require Import GoBase GoStrings GoStringsProofs DatasetModel LangModel DatasetSpec DatasetProofs DatasetProofs2 DatasetProofs3 TemplateModel TemplateSpec
  RenderSpec RenderProofs10 HoleSpec ParModel ParProofs ParProofs2 ParSpec MeanSpec MeanProofs3 GrowSpec GrowProofs.

(** ** Time passes *)
Lemma finds_le H i sc key r j : finds H i sc key r j -> i <= j.
Proof. induction 1; lia. Qed.
Lemma says_le F ord H i sc key s j : says_field F ord H i sc key s j -> i <= j.
Proof. destruct 1; repeat match goal with E : finds _ _ _ _ _ _ |- _ => apply finds_le in E end; lia. Qed.
Lemma picks_le th H i t b n c q j : picks th H i t b n c q j -> i <= j.
Proof. destruct 1; lia. Qed.
Lemma shows_le F ord th lg H :
  (forall i sc t j out, shows F ord th lg H i sc t j out -> i <= j) /\ (forall i sc t l j out, shows_all F ord th lg H i sc t l j out -> i <= j) /\
  (forall i sc t j out, shows_opt F ord th lg H i sc t j out -> i <= j) /\ (forall i sc t k j out, shows_one F ord th lg H i sc t k j out -> i <= j) /\
  (forall i sc t b x n c j out, passes F ord th lg H i sc t b x n c j out -> i < j).
Proof.
  apply shows_mutind; intros; repeat match goal with E : finds _ _ _ _ _ _ |- _ => apply finds_le in E | E : says_field _ _ _ _ _ _ _ _ |- _ => apply says_le in E
    | E : picks _ _ _ _ _ _ _ _ _ |- _ => apply picks_le in E end; lia.
Qed.
(** ** A course of careful goroutines *)
Lemma course_rtc {A} T (path : nat -> heap * list (act A)) : course T path -> forall m m', m <= m' -> m' <= T -> rtc par_step (path m) (path m').
Proof.
  intros Hc m m' Hm. induction Hm as [|m' Hm IH]; intros HT; [done|]. eapply rtc_r; [apply IH; lia|]. apply Hc. lia.
Qed.
Section Course.
  Context (T : nat) (path : nat -> heap * list (act bytes)) (Hcourse : course T path).
  Context (Hs0 : sound (path 0).1) (Hc0 : Forall (careful (path 0).1) (path 0).2).
  Lemma course_grown m m' : m <= m' -> m' <= T -> sound (path m').1 /\ grown (path m).1 (path m').1.
  Proof using Hcourse Hs0 Hc0.
    intros Hm HT. assert (H0 : all_careful (path m)) by (apply (careful_steps (path 0) (path m)); [apply (course_rtc T); [done|lia|lia]|done]).
    destruct (careful_steps (path m) (path m')) as [[H1 _] H2]; [by apply (course_rtc T)|done|done].
  Qed.
  Notation HH := (fun m => (path m).1).
  Lemma coll_later c m m' xs ys : m <= m' -> m' <= T -> collection_at (HH m) c xs -> collection_at (HH m') c ys -> xs `prefix_of` ys.
  Proof using Hcourse Hs0 Hc0.
    intros Hm HT Hx Hy. destruct (course_grown m m' Hm HT) as [_ [_ Hg]]. destruct (Hg c xs Hx) as [zs Hz]. exists zs.
    destruct Hy as [Hy|Hy], Hz as [Hz|Hz]; rewrite Hy in Hz; by injection Hz.
  Qed.
  Lemma passes_all F ord th lg i sc t b x n c j out : passes F ord th lg HH i sc t b x n c j out -> j <= T -> forall m0 xs0, m0 <= i -> collection_at (HH m0) c xs0 -> n <= length xs0 ->
    exists m xs os, j = S m /\ collection_at (HH m) c xs /\ xs0 `prefix_of` xs /\ out = concat os /\ n + length os = length xs /\
      forall k d, n <= k -> xs !! k = Some (Some d) -> exists i1 i2 m1 q o, i <= i1 /\ i2 <= m1 /\ picks th HH i1 t b k c q i2 /\ counts (HH m1) d k (HH (S m1)) /\
        exists j1, j1 <= m /\ shows F ord th lg HH (S m1) (d :: sc) (or_else q x) j1 o /\ os !! (k - n) = Some o.
  Proof using Hcourse Hs0 Hc0.
    induction 1 as [i sc t b x n c m xs Hi Hc Hl|i sc t b x n c m xs q i1 m1 ys d m2 i2 j o1 o2 Hi Hc Hl Hp Hi1 Hc1 Hd Hm2 Hcnt Hs Hps IH]; intros HT m0 xs0 Hm0 Hx0 Hn.
    - assert (Hpre : xs0 `prefix_of` xs) by (eapply coll_later; [| |exact Hx0|exact Hc]; lia). exists m, xs, []. split; [done|]. split; [done|]. split; [done|]. split; [done|].
      pose proof (prefix_length _ _ Hpre). split; [cbn; lia|]. intros k d Hk Hd. apply lookup_lt_Some in Hd. lia.
    - pose proof (picks_le _ _ _ _ _ _ _ _ _ Hp). pose proof (proj1 (shows_le F ord th lg HH) _ _ _ _ _ Hs). pose proof (proj2 (proj2 (proj2 (proj2 (shows_le F ord th lg HH)))) _ _ _ _ _ _ _ _ _ Hps).
      assert (Hpre : xs0 `prefix_of` xs) by (eapply coll_later; [| |exact Hx0|exact Hc]; lia).
      destruct (IH HT m xs) as (me & xe & os & -> & He & Hpe & -> & Hlen & Hall); [lia|done|lia|].
      exists me, xe, (o1 :: os). split; [done|]. split; [done|]. split; [by etrans|]. split; [done|]. split; [cbn; lia|].
      intros k e Hk He'. destruct (decide (k = n)) as [->|Hne].
      + assert (ys `prefix_of` xe) as Hye by (eapply coll_later; [| |exact Hc1|exact He]; lia).
        assert (Hd' : xe !! n = Some (Some d)) by (destruct Hye as [zs ->]; by apply lookup_app_l_Some). rewrite Hd' in He'. injection He' as <-.
        exists (S m), i1, m2, q, o1. split; [lia|]. split; [lia|]. split; [done|]. split; [done|]. exists i2. split; [|split; [done|]].
        * lia.
        * by rewrite Nat.sub_diag.
      + destruct (Hall k e) as (a1 & a2 & a3 & q' & o & B1 & B2 & B3 & B4 & j1 & B5 & B6 & B7); [lia|done|].
        exists a1, a2, a3, q', o. split; [lia|]. split; [lia|]. split; [done|]. split; [done|]. exists j1. split; [lia|]. split; [done|].
        by replace (k - n) with (S (k - S n)) by lia.
  Qed.
End Course.
Lemma loop_all F ord th lg T (path : nat -> heap * list (act bytes)) i sc t b x c j out m0 xs0 : course T path -> sound (path 0).1 -> Forall (careful (path 0).1) (path 0).2 ->
  passes F ord th lg (fun m => (path m).1) i sc t b x 0 c j out -> j <= T -> m0 <= i -> collection_at (path m0).1 c xs0 ->
  exists m xs os, j = S m /\ collection_at (path m).1 c xs /\ xs0 `prefix_of` xs /\ out = concat os /\ length os = length xs /\ None ∉ xs /\
    forall k d, xs !! k = Some (Some d) -> exists i1 i2 m1 q o, i <= i1 /\ i2 <= m1 /\ picks th (fun m => (path m).1) i1 t b k c q i2 /\ counts (path m1).1 d k (path (S m1)).1 /\
      exists j1, j1 <= m /\ shows F ord th lg (fun m => (path m).1) (S m1) (d :: sc) (or_else q x) j1 o /\ os !! k = Some o.
Proof.
  intros Hc Hs Hp H HT Hm Hx. destruct (passes_all T path Hc Hs Hp F ord th lg _ _ _ _ _ _ _ _ _ H HT m0 xs0 Hm Hx) as (m & xs & os & -> & A1 & A2 & A3 & A4 & A5); [lia|].
  exists m, xs, os. split; [done|]. split; [done|]. split; [done|]. split; [done|]. split; [cbn in A4; lia|]. split.
  - destruct (course_grown T path Hc Hs Hp 0 m) as [[_ Hn] _]; [lia|lia|]. by eapply Hn.
  - intros k d Hk. destruct (A5 k d) as (a1 & a2 & a3 & q' & o & B1 & B2 & B3 & B4 & j1 & B5 & B6 & B7); [lia|done|]. rewrite Nat.sub_0_r in B7.
    exists a1, a2, a3, q', o. eauto 10.
Qed.

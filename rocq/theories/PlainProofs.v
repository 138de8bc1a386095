(** * Proofs about the text of plain values (C99). *)
From Verif Require Import GoBase GoStrings GoStringsProofs LangModel DatasetModel DatasetSpec DatasetProofs2 DatasetProofs3 DatasetProofs5 TextSpec TextProofs PlainSpec.
Local Open Scope Z_scope.

(** ** Numerals *)
Lemma figure_digit d : 0 <= d <= 9 -> figure d = digit d.
Proof.
  intros H. assert (d = 0 \/ d = 1 \/ d = 2 \/ d = 3 \/ d = 4 \/ d = 5 \/ d = 6 \/ d = 7 \/ d = 8 \/ d = 9) as Hd by lia.
  repeat destruct Hd as [->|Hd]; try done. by subst.
Qed.
Lemma worth_app ds d : worth (ds ++ [d]) = 10 * worth ds + d.
Proof. unfold worth. by rewrite foldl_app. Qed.
Lemma foldl_worth ds a : foldl (fun a d => 10 * a + d) a ds = a * 10 ^ Z.of_nat (length ds) + worth ds.
Proof.
  revert a. induction ds as [|d ds IH] using rev_ind; intros a; [unfold worth; simpl; lia|].
  rewrite foldl_app, worth_app, app_length. cbn [foldl length]. rewrite IH. replace (Z.of_nat (length ds + 1)) with (Z.of_nat (length ds) + 1) by lia. rewrite Z.pow_add_r by lia. lia.
Qed.
Lemma worth_nonneg ds : Forall (fun d => 0 <= d <= 9) ds -> 0 <= worth ds.
Proof.
  induction ds as [|d ds IH] using rev_ind; [done|]. intros [H1 H2]%Forall_app. rewrite worth_app. apply Forall_inv in H2. specialize (IH H1). lia.
Qed.
Lemma worth_unique ds : forall es, Forall (fun d => 0 <= d <= 9) ds -> Forall (fun d => 0 <= d <= 9) es ->
  ds <> [] -> es <> [] -> (head ds = Some 0 -> ds = [0]) -> (head es = Some 0 -> es = [0]) -> worth ds = worth es -> ds = es.
Proof.
  assert (Hz : forall ds, Forall (fun d => 0 <= d <= 9) ds -> worth ds = 0 -> Forall (eq 0) ds).
  { clear. induction ds as [|d ds IH] using rev_ind; [done|]. intros [H1 H2]%Forall_app. rewrite worth_app. apply Forall_inv in H2.
    pose proof (worth_nonneg ds H1). intros He. apply Forall_app. split; [apply IH; [done|lia]|]. constructor; [lia|done]. }
  assert (Hp : forall ds d, Forall (fun d => 0 <= d <= 9) (ds ++ [d]) -> ds <> [] -> (head (ds ++ [d]) = Some 0 -> ds ++ [d] = [0]) -> 0 < worth ds).
  { intros es e [H1 _]%Forall_app Hn Hh. pose proof (worth_nonneg es H1). destruct (decide (worth es = 0)) as [E|]; [|lia].
    apply Hz in E; [|done]. destruct es as [|x es]; [done|]. apply Forall_inv in E as <-. specialize (Hh eq_refl). by destruct es. }
  induction ds as [|d ds IH] using rev_ind; [done|]. intros es Hd He _ Hen Hdh Heh Hw.
  destruct es as [|e es _] using rev_ind; [done|]. rewrite !worth_app in Hw.
  pose proof Hd as [H1 H2]%Forall_app. pose proof He as [H3 H4]%Forall_app. apply Forall_inv in H2, H4.
  assert (worth ds = worth es /\ d = e) as [Hw' ->] by lia. f_equal.
  destruct (decide (ds = [])) as [->|Hds]; destruct (decide (es = [])) as [->|Hes]; [done|..].
  - pose proof (Hp es e He Hes Heh). unfold worth in Hw' at 1. simpl in Hw'. lia.
  - pose proof (Hp ds e Hd Hds Hdh). unfold worth in Hw' at 2. simpl in Hw'. lia.
  - apply IH; try done.
    + intros Hh. destruct ds as [|x ds]; [done|]. simpl in Hh. injection Hh as ->. specialize (Hdh eq_refl). by destruct ds.
    + intros Hh. destruct es as [|x es]; [done|]. simpl in Hh. injection Hh as ->. specialize (Heh eq_refl). by destruct es.
Qed.
Lemma pos_digits_figures n : forall z, 0 <= z < 2 ^ Z.of_nat n -> (0 < n)%nat ->
  exists ds, ds <> [] /\ Forall (fun d => 0 <= d <= 9) ds /\ (head ds = Some 0 -> ds = [0]) /\ worth ds = z /\ pos_digits n z [] = map figure ds.
Proof.
  induction n as [|n IH]; intros z Hz Hn; [lia|]. cbn [pos_digits]. case_bool_decide as E.
  - exists [z]. split_and!; [done|by constructor; [lia|]|intros [= ->]; done|unfold worth; simpl; lia|]. simpl. rewrite figure_digit by lia. done.
  - pose proof (Z.mod_pos_bound z 10). pose proof (Z.div_mod z 10). destruct (IH (z / 10)) as (ds & H1 & H2 & H3 & H4 & H5).
    + rewrite Nat2Z.inj_succ, Z.pow_succ_r in Hz by lia. split; [apply Z.div_pos; lia|]. apply Z.div_lt_upper_bound; lia.
    + destruct n; [simpl in Hz; lia|lia].
    + exists (ds ++ [z mod 10]). split_and!.
      * by destruct ds.
      * apply Forall_app. split; [done|]. by constructor; [lia|].
      * intros Hh. destruct ds as [|x ds]; [done|]. simpl in Hh. injection Hh as ->. specialize (H3 eq_refl) as [= ->]. unfold worth in H4. simpl in H4. lia.
      * rewrite worth_app, H4. lia.
      * rewrite pos_digits_app, H5, map_app. simpl. rewrite figure_digit by lia. done.
Qed.
Lemma decimal_itoa z : decimal z (itoa z).
Proof.
  unfold decimal, itoa. destruct (decide (z < 0)) as [H|H].
  - rewrite bool_decide_true by done. destruct (pos_digits_figures (Z.to_nat (Z.log2 (- z)) + 1) (- z)) as (ds & H1 & H2 & H3 & H4 & H5); [apply log2_fuel; lia|lia|].
    exists ds. split_and!; try done; [lia|]. by rewrite H5.
  - rewrite bool_decide_false by done. destruct (pos_digits_figures (Z.to_nat (Z.log2 z) + 1) z) as (ds & H1 & H2 & H3 & H4 & H5); [apply log2_fuel; lia|lia|].
    exists ds. split_and!; try done. lia.
Qed.
Lemma decimal_unique z t : decimal z t <-> t = itoa z.
Proof.
  split; [|intros ->; apply decimal_itoa]. intros (ds & H1 & H2 & H3 & H4 & ->). destruct (decimal_itoa z) as (es & G1 & G2 & G3 & G4 & ->).
  by rewrite (worth_unique ds es) by (done || congruence).
Qed.
Lemma figure_inj d e : 0 <= d <= 9 -> 0 <= e <= 9 -> figure d = figure e -> d = e.
Proof.
  intros Hd He Hf. rewrite !figure_digit in Hf by done. pose proof (digit_val_digit d Hd) as H1. rewrite Hf, digit_val_digit in H1 by done. by injection H1.
Qed.
Lemma figure_not_minus d : 0 <= d <= 9 -> figure d <> "-"%char.
Proof. intros Hd. rewrite figure_digit by done. apply digit_not_sign. done. Qed.
Lemma figure_not_space d : 0 <= d <= 9 -> figure d <> " "%char.
Proof.
  intros H. assert (d = 0 \/ d = 1 \/ d = 2 \/ d = 3 \/ d = 4 \/ d = 5 \/ d = 6 \/ d = 7 \/ d = 8 \/ d = 9) as Hd by lia.
  repeat destruct Hd as [->|Hd]; try done. by subst.
Qed.
Lemma decimal_inj z z' t : decimal z t -> decimal z' t -> z = z'.
Proof.
  intros (ds & H1 & H2 & H3 & H4 & ->) (es & G1 & G2 & G3 & G4 & He).
  assert (Hm : map figure ds = map figure es -> ds = es).
  { clear -H2 G2. revert es G2. induction H2 as [|d ds Hd _ IH]; intros [|e es] G2 Hm; try done. inversion G2; subst. injection Hm as Hf Hm.
    f_equal; [by apply figure_inj|by apply IH]. }
  destruct (decide (z < 0)), (decide (z' < 0)); simpl in He.
  - injection He as He. apply Hm in He as ->. lia.
  - destruct es as [|e es]; [done|]. injection He as He _. inversion G2; subst. by destruct (figure_not_minus e).
  - destruct ds as [|d ds]; [done|]. injection He as He _. inversion H2; subst. by destruct (figure_not_minus d).
  - apply Hm in He as ->. lia.
Qed.

(** ** Slices *)
Lemma bracketed_spaced {A} (one : A -> bytes -> Prop) (f : A -> bytes) l t : (forall a t, one a t <-> t = f a) -> bracketed one l t <-> t = spaced (map f l).
Proof.
  intros H. assert (Hf : forall ws, Forall2 one l ws <-> ws = map f l).
  { intros ws. split; [induction 1 as [|a w l ws Ha _ IH]; [done|]; by rewrite IH; simpl; apply H in Ha as ->|].
    intros ->. induction l; constructor; [by apply H|done]. }
  unfold bracketed, spaced. split.
  - intros (ws & body & Hw & Hb & ->). apply Hf in Hw as ->. by apply spaced_out_join in Hb as ->.
  - intros ->. exists (map f l), (join (B " ") (map f l)). split; [by apply Hf|]. split; [by apply spaced_out_join|done].
Qed.
Lemma truth_text b t : truth b t <-> t = bool_text b.
Proof. by destruct b. Qed.
Lemma eq_text (s t : bytes) : s = t <-> t = id s.
Proof. naive_solver. Qed.

(** ** GetString *)
Lemma reads_as_text F v t : readable_kind v -> v <> VNil -> reads_as v t <-> t = plain_text F v.
Proof.
  intros Hk Hn. destruct v as [|b|k z|f|f|s|g|l|l|l|l|l|x|d]; try done; cbn [plain_text]; split.
  - intros H. inversion H; subst. by apply truth_text.
  - intros ->. constructor. by apply truth_text.
  - intros H. inversion H; subst. by apply decimal_unique.
  - intros ->. constructor. by apply decimal_unique.
  - intros H. by inversion H.
  - intros ->. constructor.
  - intros H. inversion H; subst. match goal with G : bracketed _ _ _ |- _ => apply (bracketed_spaced _ id) in G; [|apply eq_text] end. by rewrite map_id in *.
  - intros ->. constructor. apply (bracketed_spaced _ id); [apply eq_text|]. by rewrite map_id.
  - intros H. inversion H; subst. match goal with G : bracketed _ _ _ |- _ => by apply (bracketed_spaced _ bool_text) in G; [|apply truth_text] end.
  - intros ->. constructor. by apply (bracketed_spaced _ bool_text); [apply truth_text|].
  - intros H. inversion H; subst. match goal with G : bracketed _ _ _ |- _ => by apply (bracketed_spaced _ itoa) in G; [|apply decimal_unique] end.
  - intros ->. constructor. by apply (bracketed_spaced _ itoa); [apply decimal_unique|].
Qed.
Lemma sprint_plain F ord n h v : (forall d, v <> VRef d) -> sprint F ord n h v = Ok (plain_text F v).
Proof. intros H. destruct v; try done. by destruct (H l). Qed.
Theorem get_string_plain F ord h l key v t : gets h l key (Some v) -> readable_kind v ->
  returns (fun n => get_string F ord n h l key) (t, true) <-> reads_as v t.
Proof.
  intros Hg Hk. rewrite get_string_found. split.
  - intros (v' & Hg' & Hv). assert (v' = v) as -> by (pose proof (gets_det _ _ _ _ _ Hg Hg'); congruence).
    destruct Hv as [[-> ->]|[Hn [N HN]]]; [constructor|]. apply (reads_as_text F); [done..|]. rewrite sprint_plain in HN; [by injection HN|]. by intros d ->.
  - intros Hr. exists v. split; [done|]. assert (v = VNil \/ v <> VNil) as [->|Hn] by (destruct v; (by left) || by right); [left; by inversion Hr|right]. split; [done|].
    apply (reads_as_text F) in Hr as ->; [|done..]. exists 0%nat. apply sprint_plain. by intros d ->.
Qed.

Theorem prints_plain F h v t : readable_kind v -> v <> VNil -> prints_value F h false v t <-> reads_as v t.
Proof.
  intros Hk Hn. rewrite (reads_as_text F) by done. split; [intros H; inversion H; subst; [done|by destruct Hk..]|]. intros ->. apply (pv_plain F h false v). by intros d ->.
Qed.

(** ** Telling values apart *)
Lemma decimal_word z t : decimal z t -> t <> [] /\ " "%char ∉ t.
Proof.
  intros (ds & H1 & H2 & _ & _ & ->). split; [destruct ds; [done|]; by destruct (decide (z < 0))|].
  rewrite elem_of_app. intros [H|H]; [destruct (decide (z < 0)); [|by apply elem_of_nil in H]; by apply elem_of_list_singleton in H|].
  apply elem_of_list_fmap in H as (d & He & Hd). rewrite Forall_forall in H2. by apply (figure_not_space d (H2 d Hd)).
Qed.
Theorem ints_apart l l' t : reads_as (VInts l) t -> reads_as (VInts l') t -> l = l'.
Proof.
  intros H H'. inversion H as [| | | | | |? ? (ws & body & Hw & Hb & ->)]; subst. inversion H' as [| | | | | |? ? (ws' & body' & Hw' & Hb' & He)]; subst.
  assert (body = body') as <- by (simpl in He; injection He as He; by apply app_inv_tail in He). apply spaced_out_join in Hb, Hb'.
  assert (Ha : forall l ws, Forall2 decimal l ws -> Forall (fun w => w <> [] /\ " "%char ∉ w) ws) by (induction 1; constructor; [by eapply decimal_word|done]).
  assert (ws = ws') as <-.
  { apply Ha in Hw, Hw'. subst body. assert (Hf : forall us, Forall (fun w => w <> [] /\ " "%char ∉ w) us -> Forall (fun w : bytes => " "%char ∉ w) us) by (intros us Hus; eapply Forall_impl; [exact Hus|]; by intros ? []).
    assert (Hn : forall us, us <> [] -> Forall (fun w => w <> [] /\ " "%char ∉ w) us -> join (B " ") us <> []).
    { intros [|u us] Hu Hall; [done|]. apply Forall_inv in Hall as [Hu' _]. destruct us; [done|]. rewrite join_cons by done. by destruct u. }
    destruct (decide (ws = [])) as [->|E], (decide (ws' = [])) as [->|E']; [done| | |].
    - by destruct (Hn ws' E' Hw').
    - by destruct (Hn ws E Hw).
    - rewrite <- (split_join " "%char ws), <- (split_join " "%char ws') by auto. f_equal. done. }
  clear -Hw Hw'. revert l' Hw'. induction Hw as [|z w l ws Hz _ IH]; intros l' Hw'; inversion Hw'; subst; [done|]. f_equal; [by eapply decimal_inj|by apply IH].
Qed.
Lemma reads_as_ambiguous : reads_as (VStrs [B "a"; B "b"]) (B "[a b]") /\ reads_as (VStrs [B "a b"]) (B "[a b]") /\
  reads_as (VInt KInt 7) (B "7") /\ reads_as (VStr (B "7")) (B "7") /\ reads_as (VBool true) (B "true") /\ reads_as (VStr (B "true")) (B "true").
Proof.
  set (F := GoLib (fun _ => []) (fun _ => []) (fun _ => []) (fun _ => []) (fun _ => []) (fun _ => 0)).
  split_and!; by apply (reads_as_text F).
Qed.

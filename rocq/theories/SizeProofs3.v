(** * Proofs for C128: no polynomial, and cases. *)
From Verif Require Import GoBase GoStrings DatasetModel LangModel DatasetSpec DatasetProofs DatasetProofs2 DatasetProofs3 TemplateModel TemplateSpec RenderSpec RenderProofs RenderProofs10 SizeSpec SizeProofs SizeProofs2.
Local Open Scope nat_scope.

Lemma square_pow j : 4 <= j -> j * j <= 2 ^ j.
Proof.
  induction 1 as [|j Hj IH]; [cbn; lia|]. rewrite Nat.pow_succ_r'. nia.
Qed.
Lemma outgrows c k : exists n, c * ((2 + 2) * (n + 10) ^ 2) ^ k < 2 ^ n.
Proof.
  pose (j := c + 6 * k + 5). exists (2 ^ j).
  assert (Hq : 16 <= 2 ^ j) by (change 16 with (2 ^ 4); apply Nat.pow_le_mono_r; unfold j; lia).
  assert (H1 : (2 + 2) * (2 ^ j + 10) ^ 2 <= 2 ^ (4 + 2 * j)).
  { replace (2 ^ (4 + 2 * j)) with (16 * (2 ^ j * 2 ^ j)) by (rewrite <- Nat.pow_add_r; replace (4 + 2 * j) with (4 + (j + j)) by lia; by rewrite (Nat.pow_add_r 2 4)).
    rewrite Nat.pow_2_r. nia. }
  assert (H2 : ((2 + 2) * (2 ^ j + 10) ^ 2) ^ k <= 2 ^ ((4 + 2 * j) * k)).
  { rewrite Nat.pow_mul_r. by apply Nat.pow_le_mono_l. }
  assert (H3 : c < 2 ^ c) by (apply Nat.pow_gt_lin_r; lia).
  assert (H4 : c + (4 + 2 * j) * k <= 2 ^ j) by (pose proof (square_pow j ltac:(unfold j; lia)); unfold j in *; nia).
  apply Nat.lt_le_trans with (2 ^ c * 2 ^ ((4 + 2 * j) * k)).
  - assert (0 < 2 ^ ((4 + 2 * j) * k)) by (apply Nat.neq_0_lt_0, Nat.pow_nonzero; lia). nia.
  - rewrite <- Nat.pow_add_r. apply Nat.pow_le_mono_r; [lia|exact H4].
Qed.
Lemma no_polynomial F ord langs c k : exists text th t n out, new_template ∅ text = (th, Some t) /\ execute F ord langs th n ∅ t None = Ok (∅, out) /\
  c * length text ^ k < length out.
Proof.
  destruct (outgrows c k) as [n Hn]. destruct (tower_executes F ord langs ∅ 2 n) as (text & th & t & Hl & Hnew & Hrun & _).
  exists text, th, t, (n + 4), (replicate (2 ^ n) "x"%char). split; [done|]. split; [by apply Hrun|]. rewrite replicate_length.
  apply (Nat.le_lt_trans _ _ _) with (2 := Hn). apply Nat.mul_le_mono_l. by apply Nat.pow_le_mono_l.
Qed.

(** ** A case with data: a list with the same dataset twice *)
Definition album : heap := list_to_map [(1%positive, ds [("l"%string, VRef 2)]); (2%positive, OColl [Some 3%positive; Some 3%positive]); (3%positive, ds [("n"%string, VStr (B "abc"))])].
Definition numbered (z : Z) : heap := <[3%positive := ODs (<[B ".counter" := VInt KInt z]> (list_to_map [(B "n", VStr (B "abc"))]))]> album.
Definition values_of (h : heap) : list value :=
  flat_map (fun x => match x.2 with ODs m => map snd (map_to_list m) | OColl xs | OCollTS xs => map VRef (omap id xs) | OTs _ => [] end) (map_to_list h).
Definition text_length (o : outcome bytes) : nat := match o with Ok s => length s | _ => 0 end.
Definition ended (o : outcome bytes) : bool := match o with NoFuel => false | _ => true end.
Definition widths (F : golib) (h : heap) : list nat :=
  map (fun v => text_length (sprint F ord0 30 h v)) (values_of h) ++ map (fun d => text_length (show F ord0 30 h true d)) (map fst (map_to_list h)).
Definition all_end (F : golib) (h : heap) : bool :=
  forallb (fun v => ended (sprint F ord0 30 h v)) (values_of h) && forallb (fun d => ended (show F ord0 30 h true d)) (map fst (map_to_list h)).
Lemma values_all h v : stored_in h v -> v ∈ values_of h.
Proof.
  unfold values_of. intros [(l & m & k & Hl & Hk)|(c & xs & d & Hc & Hd & ->)]; apply elem_of_list_In, in_flat_map.
  - exists (l, ODs m). split; [by apply elem_of_list_In, elem_of_map_to_list|]. cbn. apply elem_of_list_In, elem_of_list_fmap. exists (k, v). split; [done|]. by apply elem_of_map_to_list.
  - assert (Hin : VRef d ∈ map VRef (omap id xs)) by (apply elem_of_list_fmap; exists d; split; [done|]; apply elem_of_list_omap; by exists (Some d)).
    destruct Hc as [Hc|Hc]; (eexists (c, _); split; [apply elem_of_list_In, elem_of_map_to_list, Hc|]; cbn; by apply elem_of_list_In).
Qed.
Lemma widths_max F h x : x ∈ widths F h -> x <= max_list (widths F h).
Proof. apply max_list_elem_of_le. Qed.
Lemma width_value F h v s : all_end F h = true -> stored_in h v -> prints F ord0 h v s -> length s <= max_list (widths F h).
Proof.
  intros [Ha _]%andb_prop Hv%values_all [n Hn]. rewrite forallb_forall in Ha. specialize (Ha v ltac:(by apply elem_of_list_In)).
  apply widths_max. apply elem_of_app. left. apply elem_of_list_fmap. exists v. split; [|done].
  assert (E : sprint F ord0 30 h v = Ok s); [|by rewrite E].
  destruct (sprint F ord0 30 h v) as [s'| |] eqn:E; [| |discriminate Ha];
    (apply (sprint_mono F ord0 _ (30 + n)) in E; [|lia|done]; apply (sprint_mono F ord0 _ (30 + n)) in Hn; [|lia|done]; congruence).
Qed.
Lemma width_dump F h d s : all_end F h = true -> dumps F ord0 h d s -> length s <= max_list (widths F h).
Proof.
  intros [_ Ha]%andb_prop [n Hn]. destruct (h !! d) as [o|] eqn:Ed; [|destruct n as [|n]; [done|]; cbn [show] in Hn; by rewrite Ed in Hn].
  assert (Hd : d ∈ map fst (map_to_list h)) by (apply elem_of_list_fmap; exists (d, o); split; [done|]; by apply elem_of_map_to_list).
  rewrite forallb_forall in Ha. specialize (Ha d ltac:(by apply elem_of_list_In)).
  apply widths_max. apply elem_of_app. right. apply elem_of_list_fmap. exists d. split; [|done].
  assert (E : show F ord0 30 h true d = Ok s); [|by rewrite E].
  destruct (show F ord0 30 h true d) as [s'| |] eqn:E; [| |discriminate Ha];
    (apply (show_mono F ord0 _ (30 + n)) in E; [|lia|done]; apply (show_mono F ord0 _ (30 + n)) in Hn; [|lia|done]; congruence).
Qed.
Lemma album_at x o : album !! x = Some o -> (x, o) ∈ [(1%positive, ds [("l"%string, VRef 2)]); (2%positive, OColl [Some 3%positive; Some 3%positive]); (3%positive, ds [("n"%string, VStr (B "abc"))])].
Proof. apply elem_of_list_to_map_2. Qed.
Lemma album_lists c xs : collection_at album c xs -> xs = [Some 3%positive; Some 3%positive].
Proof.
  intros [H|H]; apply album_at in H; repeat (apply elem_of_cons in H as [H|H]; [discriminate H || (injection H as _ ->; done)|]); by apply elem_of_nil in H.
Qed.
Lemma album_counted h : counted album h -> h = album \/ h = numbered 1 \/ h = numbered 2.
Proof.
  intros Hc. assert (Ho : forall x, x <> 3%positive -> h !! x = album !! x).
  { intros x Hx. destruct (Hc x) as [H|(m & c & xs & i & d & _ & Hl & Hi & Hin & _)]; [done|]. apply album_lists in Hl as ->.
    assert (d = 3%positive) as -> by (destruct i as [|[|i]]; [by injection Hi|by injection Hi|discriminate Hi]).
    inversion Hin; subst; [done|]. vm_compute in H. discriminate H. }
  assert (Hall : forall o, h !! 3%positive = Some o -> h = <[3%positive := o]> album).
  { intros o H3. apply map_eq. intros x. destruct (decide (x = 3%positive)) as [->|Hx]; [by rewrite lookup_insert|]. rewrite lookup_insert_ne by done. by apply Ho. }
  destruct (Hc 3%positive) as [H|(m & c & xs & i & d & Hm & Hl & Hi & Hin & H)].
  - left. apply map_eq. intros x. destruct (decide (x = 3%positive)) as [->|Hx]; [done|by apply Ho].
  - right. apply album_lists in Hl as ->. apply Hall in H. assert (Em : m = list_to_map [(B "n", VStr (B "abc"))]) by (apply album_at in Hm; repeat (apply elem_of_cons in Hm as [Hm|Hm]; [discriminate Hm || (by injection Hm)|]); by apply elem_of_nil in Hm).
    subst m. destruct i as [|[|i]]; [left|right|discriminate Hi]; exact H.
Qed.
Lemma max_list_app a b : max_list (a ++ b) = max_list a `max` max_list b.
Proof. induction a as [|x a IH]; cbn; [done|]. rewrite IH. lia. Qed.
Lemma album_small F : exists V, small_data F ord0 album 2 V.
Proof.
  exists (max_list (widths F album ++ widths F (numbered 1) ++ widths F (numbered 2))).
  assert (He0 : all_end F album = true) by (vm_compute; reflexivity). assert (He1 : all_end F (numbered 1) = true) by (vm_compute; reflexivity). assert (He2 : all_end F (numbered 2) = true) by (vm_compute; reflexivity).
  assert (Hm : forall h, counted album h -> all_end F h = true /\ max_list (widths F h) <= max_list (widths F album ++ widths F (numbered 1) ++ widths F (numbered 2))).
  { intros h Hc. rewrite !max_list_app. destruct (album_counted h Hc) as [->|[->| ->]]; (split; [assumption|lia]). }
  split; [intros c xs ->%album_lists; done|]. split.
  - intros h v s Hc Hv Hp. destruct (Hm h Hc) as [Ha Hle]. pose proof (width_value F h v s Ha Hv Hp). lia.
  - intros h d s Hc Hp. destruct (Hm h Hc) as [Ha Hle]. pose proof (width_dump F h d s Ha Hp). lia.
Qed.

Definition two_rows : string := "@@l:a@@[[a]]{{n}}[[]]".
Definition rank_rows (x : loc) : nat := if bool_decide (x = (page two_rows).2) then 1 else 0.
Definition small_check (th : theap) (M V : nat) : bool :=
  forallb (fun '(_, T) => match t_root T with
                          | None => Nat.leb (length (B "Error, no template.Root compiled")) V
                          | Some ps => Nat.leb (length ps) M && forallb (fun p => negb (bool_decide (p_type p = MString)) || Nat.leb (length (p_data p)) V) ps
                          end) (map_to_list th).
Lemma small_checked th M V : small_check th M V = true -> small_templates th M V.
Proof.
  intros H t T HT. unfold small_check in H. rewrite forallb_forall in H. specialize (H (t, T) ltac:(by apply elem_of_list_In, elem_of_map_to_list)). cbn beta iota in H.
  destruct (t_root T) as [ps|]; [|by apply Nat.leb_le]. apply andb_prop in H as [H1 H2]. split; [by apply Nat.leb_le|].
  intros p Hp Ht. rewrite forallb_forall in H2. specialize (H2 p ltac:(by apply elem_of_list_In)). rewrite bool_decide_eq_true_2 in H2 by done. by apply Nat.leb_le.
Qed.
Lemma small_more th M V V' : V <= V' -> small_templates th M V -> small_templates th M V'.
Proof. intros Hle H t T HT. specialize (H t T HT). destruct (t_root T); [|lia]. destruct H as [H1 H2]. split; [done|]. intros p Hp Ht. specialize (H2 p Hp Ht). lia. Qed.
Lemma rows_case F : compiled (page two_rows).1 /\ ranked (page two_rows).1 rank_rows /\ (exists V, small_templates (page two_rows).1 1 V /\ small_data F ord0 album 2 V) /\
  text_of (run F ord0 (fun _ => None) two_rows album (Some 1%positive)) = Ok (B "abcabc").
Proof.
  split; [apply (built_ok _ (page_built two_rows))|]. split; [apply rank_check_ok; vm_compute; reflexivity|]. split; [|vm_compute; reflexivity].
  destruct (album_small F) as [V HV]. exists (V). split; [|done]. apply (small_more _ _ 0); [lia|]. apply small_checked. vm_compute. reflexivity.
Qed.

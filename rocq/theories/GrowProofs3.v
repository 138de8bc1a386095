(** * Executions while the data grow (C119): a loop that goes on as long as elements come; a case. *)
From Verif Require Import GoBase GoStrings GoStringsProofs DatasetModel LangModel DatasetSpec DatasetProofs DatasetProofs2 DatasetProofs3 TemplateModel TemplateSpec
  RenderSpec RenderProofs10 HoleSpec ParModel ParProofs ParProofs2 ParSpec ParProofs5 MeanSpec MeanProofs3 MeanProofs4 GrowSpec GrowProofs.
Local Open Scope Z_scope.

(** ** Two goroutines *)
Inductive duo {A C} : heap * act A * act C -> heap * act A * act C -> Prop :=
| duo_l h w k q : duo (h, Act w k, q) (w h, k h, q)
| duo_r h p w k : duo (h, p, Act w k) (w h, p, k h).
Lemma duo_par {A} h (p q : act A) h' p' q' : rtc duo (h, p, q) (h', p', q') -> rtc par_step (h, [p; q]) (h', [p'; q']).
Proof.
  intros H. remember (h, p, q) as s eqn:E1. remember (h', p', q') as s' eqn:E2. revert h p q h' p' q' E1 E2.
  induction H as [s|s1 s2 s3 Hst _ IH]; intros h p q h' p' q' -> E2; [by injection E2 as -> -> ->|]. subst s3.
  inversion Hst; subst.
  - eapply rtc_l; [apply (par_act _ [Act w k; q] 0%nat w k); done|]. by apply IH.
  - eapply rtc_l; [apply (par_act _ [p; Act w k] 1%nat w k); done|]. by apply IH.
Qed.
Lemma duo_bind {A C D} (f : A -> act D) h (p : act A) (q : act C) h' p' q' : rtc duo (h, p, q) (h', p', q') -> rtc duo (h, abind p f, q) (h', abind p' f, q').
Proof.
  intros H. remember (h, p, q) as s eqn:E1. remember (h', p', q') as s' eqn:E2. revert h p q h' p' q' E1 E2.
  induction H as [s|s1 s2 s3 Hst _ IH]; intros h p q h' p' q' -> E2; [by injection E2 as -> -> ->|]. subst s3.
  inversion Hst; subst; (eapply rtc_l; [cbn [abind]; constructor|]); cbv beta; by apply IH.
Qed.
Lemma duo_alone {A C} (p : act A) : forall h h' a (q : act C), alone p h = Ok (h', a) -> rtc duo (h, p, q) (h', Ret a, q).
Proof.
  induction p as [a| | |w k IH]; intros h h' a' q; cbn; try done; [by intros [= -> ->]|]. intros H. eapply rtc_l; [constructor|]. by apply IH.
Qed.
Lemma duo_right {A C} (p : act A) (q : act C) : forall h h' a, alone q h = Ok (h', a) -> rtc duo (h, p, q) (h', p, Ret a).
Proof.
  induction q as [a| | |w k IH]; intros h h' a'; cbn; try done; [by intros [= -> ->]|]. intros H. eapply rtc_l; [constructor|]. by apply IH.
Qed.
Lemma duo_right_bind {A C D} (p : act A) (q : act C) (f : C -> act D) : forall h h' a, alone q h = Ok (h', a) -> rtc duo (h, p, abind q f) (h', p, f a).
Proof.
  induction q as [a| | |w k IH]; intros h h' a'; cbn; try done; [by intros [= -> ->]|]. intros H. eapply rtc_l; [constructor|]. by apply IH.
Qed.
(** ** A list that gets a new element before each round *)
Definition one_field : gmap bytes value := {[B "n" := VStr (B "x")]}.
Definition short : heap := list_to_map [(1%positive, ds [("c"%string, VRef 2)]); (2%positive, OCollTS [Some 3%positive]); (3%positive, ODs one_field)].
Section Endless.
  Context (F : golib) (langs : nat -> option lang).
  Let th : theap := listing.1.
  Lemma no_choice n s : lookup_template th (S n) 1 (dot (B "a") s) = Ok None.
  Proof.
    unfold lookup_template. cbn [get_template]. destruct (th !! 1%positive) as [T|] eqn:E; [|by vm_compute in E].
    assert (Hs : t_subs T ≫= (fun m => m !! dot (B "a") s) = None).
    { destruct (t_subs T) as [m|] eqn:Em; [|done]. change (m !! dot (B "a") s = None). apply eq_None_not_Some. intros [y Hy]. apply elem_of_map_to_list in Hy.
      assert (Hm : map_to_list m = [(B "a", 2%positive)]).
      { assert (H : map_to_list (match t_subs <$> (th !! 1%positive : option tmpl) with Some (Some m) => m | _ => ∅ end) = [(B "a", 2%positive)]) by (vm_compute; reflexivity).
        rewrite E in H. cbn [fmap option_fmap option_map] in H. by rewrite Em in H. }
      rewrite Hm in Hy. apply elem_of_list_singleton in Hy. by injection Hy. }
    rewrite Hs. assert (Hf : t_father <$> (th !! 1%positive : option tmpl) = Some None) by (vm_compute; reflexivity). rewrite E in Hf. cbn in Hf. by injection Hf as ->.
  Qed.
  Lemma no_choices n ss : try_names th (S n) 1 (map (dot (B "a")) ss) = Ok None.
  Proof. induction ss as [|s ss IH]; [done|]. cbn [map try_names]. by rewrite no_choice. Qed.
  Lemma inner_text n lg h d m : h !! d = Some (ODs m) -> m !! B "n" = Some (VStr (B "x")) ->
    alone (p_injector F ord0 th (S (S n)) lg (Some [1%positive; d]) 2) h = Ok (h, (Some [1%positive; d], B "x")).
  Proof.
    intros Hd Hm. cbn [p_injector]. destruct (th !! 2%positive) as [T|] eqn:E; [|by vm_compute in E].
    assert (Hr : t_root T = Some [Param 7 (B "n")]).
    { assert (H : t_root <$> (th !! 2%positive : option tmpl) = Some (Some [Param 7 (B "n")])) by (vm_compute; reflexivity). rewrite E in H. cbn in H. by injection H. }
    rewrite Hr. cbn [p_params]. unfold p_param. cbn [p_type TemplateModel.p_data].
    rewrite !bool_decide_eq_false_2, bool_decide_eq_true_2 by done. unfold p_string, p_data. change (reverse [1%positive; d]) with [d; 1%positive]. cbn [p_search read abind alone lift].
    cbn [dget]. rewrite Hd. change (split_on gt (B "n")) with [B "n"]. cbn [lift abind]. rewrite Hm. cbn. done.
  Qed.
  (** The last element of the list is number [i]. *)
  Definition at_last (i : nat) (h : heap) : Prop :=
    exists xs d m, h !! 2%positive = Some (OCollTS xs) /\ length xs = S i /\ xs !! i = Some (Some d) /\ h !! d = Some (ODs m) /\ m !! B "n" = Some (VStr (B "x")).
  Notation rest n k i := (p_loop th n (p_injector F ord0 th n None) k i (Some [1%positive]) 1 (B "a") 2 2).
  Lemma one_round {C} n k i h (q : act C) : at_last i h -> exists h' xs, h' !! 2%positive = Some (OCollTS xs) /\ length xs = S i /\
    rtc duo (h, rest (S (S n)) (S k) (Z.of_nat i), q) (h', '(sc4, outs) <~ rest (S (S n)) k (Z.of_nat i + 1); Ret (sc4, B "x" :: outs), q).
  Proof.
    intros (xs & d & m & H2 & Hl & Hi & Hd & Hm). set (m' := <[B ".counter" := VInt KInt (Z.of_nat i + 1)]> m). exists (<[d := ODs m']> h), xs.
    assert (Hne : d <> 2%positive) by (intros ->; rewrite Hd in H2; done).
    split; [by rewrite lookup_insert_ne by done|]. split; [done|]. cbn [p_loop].
    assert (Hcount : forall h, h !! 2%positive = Some (OCollTS xs) -> ccount h 2 = Ok (Z.of_nat (S i))) by (intros h1 E; unfold ccount, elements; by rewrite E, Hl).
    eapply rtc_l; [constructor|]. cbv beta. rewrite Hcount by done. cbn [lift abind]. rewrite bool_decide_eq_true_2 by lia.
    match goal with |- context [try_names th ?N 1 ?L] => replace (try_names th N 1 L) with (Ok (None : option loc)) end.
    2: { symmetry. case_bool_decide; [apply (no_choices (S n) [B "key." ++ itoa (Z.of_nat i); B "first"])|apply (no_choices (S n) [B "key." ++ itoa (Z.of_nat i)])]. }
    cbn [lift abind]. eapply rtc_l; [constructor|]. cbv beta. rewrite Hcount by done. cbn [lift abind].
    match goal with |- context [try_names th ?N 1 ?L] => replace (try_names th N 1 L) with (Ok (None : option loc)) end.
    2: { symmetry. repeat case_bool_decide.
      - apply (no_choices (S n) [B "last"; B "even"]).
      - apply (no_choices (S n) [B "last"]).
      - apply (no_choices (S n) [B "even"]).
      - apply (no_choices (S n) []). }
    cbn [lift abind]. eapply rtc_l; [constructor|]. cbv beta.
    assert (Hget : cget h 2 (Z.of_nat i) = Ok (Some (Some d))).
    { unfold cget, elements. rewrite H2. rewrite bool_decide_eq_false_2, bool_decide_eq_false_2 by lia. cbn. by rewrite Nat2Z.id, Hi. }
    rewrite Hget. cbn [lift abind].
    assert (Hset : dset (S (S n)) h d (B ".counter") (VInt KInt (Z.of_nat i + 1)) = Ok (<[d := ODs m']> h)) by (unfold dset; cbn; by rewrite Hd).
    eapply rtc_l; [constructor|]. cbv beta. rewrite Hset. cbn [lift abind]. change (spush (Some [1%positive]) d) with (Ok (Some [1%positive; d]) : outcome (option (list loc))). cbn [lift abind].
    eapply rtc_transitive.
    - apply duo_bind. apply duo_alone. eapply inner_text; [by rewrite lookup_insert|]. unfold m'. by rewrite lookup_insert_ne by done.
    - cbn [abind lift]. done.
  Qed.
  Context (new : heap -> loc) (Hnew : forall h, h !! new h = None).
  Lemma push_last i h xs : h !! 2%positive = Some (OCollTS xs) -> length xs = S i -> exists h', alone (push_new new 2 one_field) h = Ok (h', tt) /\ at_last (S i) h'.
  Proof using Hnew.
    intros H2 Hl. assert (Hne : new h <> 2%positive) by (intros E; pose proof (Hnew h) as Hn; rewrite E, H2 in Hn; done).
    assert (Hp : cpush (<[new h := ODs one_field]> h) 2 (Some (new h)) = Ok (<[2%positive := OCollTS (xs ++ [Some (new h)])]> (<[new h := ODs one_field]> h))).
    { unfold cpush, elements, set_elements. rewrite !lookup_insert_ne by done. by rewrite H2. }
    eexists. split; [unfold push_new, literal, write; cbn [abind alone]; rewrite Hp; reflexivity|]. exists (xs ++ [Some (new h)]), (new h), one_field. rewrite lookup_insert. split; [done|]. split; [rewrite app_length; cbn; lia|].
    split; [rewrite lookup_app_r by lia; rewrite <- Hl, Nat.sub_diag; done|]. split; [by rewrite lookup_insert_ne, lookup_insert by done|]. apply lookup_singleton.
  Qed.
  Lemma rounds n K : forall i h, at_last i h -> exists h',
    rtc duo (h, rest (S (S n)) (S (S K)) (Z.of_nat i), push_all new 2 (replicate K one_field)) (h', Ret (Some [1%positive], replicate (S K) (B "x")), Ret []).
  Proof using Hnew.
    induction K as [|K IH]; intros i h Hi.
    - destruct (one_round n 1 i h (push_all new 2 (replicate 0 one_field)) Hi) as (h1 & xs & H2 & Hl & Hst). exists h1. eapply rtc_transitive; [exact Hst|].
      cbn [p_loop]. eapply rtc_l; [constructor|]. cbv beta. unfold ccount, elements. rewrite H2. cbn [lift abind]. rewrite bool_decide_eq_false_2 by lia. done.
    - destruct (one_round n (S (S K)) i h (push_all new 2 (replicate (S K) one_field)) Hi) as (h1 & xs & H2 & Hl & Hst).
      destruct (push_last i h1 xs H2 Hl) as (h2 & Hp & Hi2). destruct (IH (S i) h2 Hi2) as (h' & Hr). exists h'.
      eapply rtc_transitive; [exact Hst|]. eapply rtc_transitive; [change (push_all new 2 (replicate (S K) one_field)) with (_ <~ push_new new 2 one_field; push_all new 2 (replicate K one_field)); apply duo_right_bind; exact Hp|]; cbv beta.
      replace (Z.of_nat i + 1) with (Z.of_nat (S i)) by lia. eapply rtc_transitive; [apply duo_bind; exact Hr|]. done.
  Qed.
  Lemma short_last : at_last 0 short.
  Proof. exists [Some 3%positive], 3%positive, one_field. by split_and!. Qed.
  Lemma all_rounds K : exists h', rtc duo (short, p_execute F ord0 langs th (S (S (S K))) 1 (Some 1%positive), push_all new 2 (replicate K one_field))
    (h', Ret (concat (replicate (S K) (B "x"))), Ret []).
  Proof using Hnew.
    destruct (rounds K K 0 short short_last) as [h' Hr]. exists h'. unfold p_execute. eapply rtc_l; [constructor|]. cbv beta.
    replace (dget (S (S (S K))) short 1 (B "#")) with (Ok (None : option value)) by reflexivity. cbn [lift abind].
    assert (Hin : rtc duo (short, p_injector F ord0 th (S (S (S K))) None (Some [1%positive]) 1, push_all new 2 (replicate K one_field))
      (h', Ret (Some [1%positive], concat (replicate (S K) (B "x"))), Ret [])); [|eapply rtc_transitive; [apply duo_bind; exact Hin|done]].
    remember (S (S K)) as N eqn:EN. cbn [p_injector]. destruct (th !! 1%positive) as [T|] eqn:E; [|by vm_compute in E].
    assert (Hroot : t_root T = Some [Param 4 (B "c:a")]).
    { assert (H : t_root <$> (th !! 1%positive : option tmpl) = Some (Some [Param 4 (B "c:a")])) by (vm_compute; reflexivity). rewrite E in H. cbn in H. by injection H. }
    rewrite Hroot. cbn [p_params]. unfold p_param. cbn [p_type TemplateModel.p_data]. rewrite !bool_decide_eq_false_2, bool_decide_eq_true_2 by done.
    assert (Hra : rtc duo (short, p_range th N (p_injector F ord0 th N None) (Some [1%positive]) 1 (B "c:a"), push_all new 2 (replicate K one_field))
      (h', Ret (Some [1%positive], replicate (S K) (B "x")), Ret [])).
    { unfold p_range. change (two_ids (B "c:a")) with (B "c", B "a"). cbv iota beta.
      assert (Hlook : lookup_template th N 1 (B "a") = Ok (Some 2%positive)) by (subst N; vm_compute; reflexivity). rewrite Hlook. cbn [lift abind].
      unfold p_collection, p_data. change (reverse [1%positive]) with [1%positive]. cbn [p_search abind read]. eapply rtc_l; [constructor|]. cbv beta.
      replace (dget N short 1 (B "c")) with (Ok (Some (VRef 2))) by (subst N; reflexivity). cbn [lift abind]. eapply rtc_l; [constructor|]. cbv beta.
      change (Some (VRef 2) ≫= as_collection short) with (Some 2%positive). cbn [lift abind]. eapply rtc_l; [constructor|]. cbv beta.
      change (ccount short 2) with (Ok 1 : outcome Z). cbn [lift abind]. rewrite bool_decide_eq_true_2 by lia. subst N. exact Hr. }
    eapply rtc_transitive; [apply duo_bind, duo_bind; exact Hra|]. cbn [abind]. rewrite app_nil_r. done.
  Qed.
End Endless.
Lemma short_sound : sound short.
Proof.
  split; [split|].
  - intros l w H. apply elem_of_list_to_map_2 in H. repeat (apply elem_of_cons in H as [[= ]|H]). by apply elem_of_nil in H.
  - intros c xs d [H|H] Hd; apply elem_of_list_to_map_2 in H; repeat (apply elem_of_cons in H as [[= -> ->]|H]); try (by apply elem_of_nil in H).
    apply elem_of_list_singleton in Hd as [= ->]. left. by eexists.
  - intros c xs [H|H] Hd; apply elem_of_list_to_map_2 in H; repeat (apply elem_of_cons in H as [[= -> ->]|H]); try (by apply elem_of_nil in H).
    by apply elem_of_list_singleton in Hd.
Qed.
Lemma endless : exists p h, built p.1 /\ sound h /\ forall F langs, at_end F langs p (Ok h) = Ok (B "x") /\
  forall new K, (forall h, h !! new h = None) -> exists n h',
    rtc par_step (h, [p_execute F ord0 langs p.1 n p.2 (Some 1%positive); push_all new 2 (replicate K one_field)]) (h', [Ret (concat (replicate (S K) (B "x"))); Ret []]).
Proof.
  exists listing, short. split; [apply page_built|]. split; [apply short_sound|]. intros F langs. split; [vm_compute; reflexivity|]. intros new K Hn.
  destruct (all_rounds F langs new Hn K) as [h' H]. exists (S (S (S K))), h'. apply duo_par. exact H.
Qed.
Definition fresh_loc (h : heap) : loc := fresh (dom h : gset loc).
Lemma fresh_loc_new h : h !! fresh_loc h = None.
Proof. apply (not_elem_of_dom (D := gset loc)). unfold fresh_loc. exact (is_fresh (dom h : gset loc)). Qed.
Lemma three_sound : sound three.
Proof.
  assert (Hds : forall d, d ∈ [1; 3; 4; 5]%positive -> chain three d /\ dataset_at three d).
  { intros d Hd. repeat (apply elem_of_cons in Hd as [->|Hd]); try (by apply elem_of_nil in Hd);
      (split; [eapply chain_ts; [vm_compute; reflexivity|]; eapply chain_ds; vm_compute; reflexivity|right; eexists; vm_compute; reflexivity]). }
  split; [split|].
  - intros l w H. apply Hds. apply elem_of_list_to_map_2 in H. repeat (apply elem_of_cons in H as [[= -> ->]|H]); try (by apply elem_of_nil in H); set_solver.
  - intros c xs d [H|H] Hd; apply elem_of_list_to_map_2 in H; repeat (apply elem_of_cons in H as [[= -> ->]|H]); try (by apply elem_of_nil in H).
    apply Hds. repeat (apply elem_of_cons in Hd as [[= ->]|Hd]; [set_solver|]). by apply elem_of_nil in Hd.
  - intros c xs [H|H] Hd; apply elem_of_list_to_map_2 in H; repeat (apply elem_of_cons in H as [[= -> ->]|H]); try (by apply elem_of_nil in H).
    repeat (apply elem_of_cons in Hd as [[=]|Hd]). by apply elem_of_nil in Hd.
Qed.
(** A name is set and an element added while the list is printed. *)
Definition writer : act bytes := _ <~ write (fun h => dset 30 h 4%positive (B "n") (VStr (B "Y"))); push_all fresh_loc 2 [<[B "n" := VStr (B "w")]> ∅].
Lemma growing_case : forall F langs, let e := p_execute F ord0 langs listing.1 30 listing.2 (Some 1%positive) in
  compiled listing.1 /\ closed listing.1 /\ is_Some (listing.1 !! listing.2) /\ sound three /\ dataset_at three 1 /\ Forall (careful three) [e; writer] /\
  exists h', rtc par_step (three, [e; writer]) (h', [Ret (B "xYzw"); Ret []]).
Proof.
  intros F langs e. subst e. destruct (built_ok _ (page_built "@@c:a@@[[a]]{{n}}[[]]")) as (Hcomp & Hcl & _).
  assert (Ht : is_Some (listing.1 !! listing.2)) by (eexists; vm_compute; reflexivity). assert (Hd : dataset_at three 1) by (right; eexists; vm_compute; reflexivity).
  split; [exact Hcomp|]. split; [exact Hcl|]. split; [exact Ht|]. split; [exact three_sound|]. split; [exact Hd|]. split.
  - constructor; [exact (careful_execute F ord0 langs listing.1 30 listing.2 1 three Hcl Ht Hd)|]. constructor; [|constructor]. unfold writer. apply careful_bind; [apply careful_set|]. intros a h' _. apply careful_push_all, fresh_loc_new.
  - followed (repeat 0%nat 10 ++ repeat 1%nat 10 ++ repeat 0%nat 80) (three, [p_execute F ord0 langs listing.1 30 listing.2 (Some 1%positive); writer]) ([Ret (B "xYzw"); Ret []] : list (act bytes)).
Qed.

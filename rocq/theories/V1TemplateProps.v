(** * Property theorems about the templates of the root package, version 1 (C85-C91). *)
From Verif Require Import GoBase GoStrings Regex RegexSyntax DatasetModel LangModel DatasetSpec DatasetProofs3 TemplateModel TemplateSpec RenderSpec RenderProofs3 RenderProofs10 PrintModel
  V1Template V1TemplateSpec V1TemplateProofs V1TemplateProofs2 V1TemplateProofs3 V1TemplateProofs4 V1TemplateProofs5 V1TemplateProofs6 V1TemplateProofs7.
Local Open Scope Z_scope.

(** ** C85 *)
Theorem C85_pattern : exists r, regexp_of pattern1 = Some r /\ (forall s, matches r s = matches meta1 s) /\
  forall n s, find_all n r s = find_all n meta1 s.
Proof. exact pattern1_denotes. Qed.
Print Assumptions C85_pattern.
Theorem C85_scanner : forall s l, reads1 s l <-> first_pass1 s = map stored l.
Proof. exact first_pass1_iff. Qed.
Print Assumptions C85_scanner.
Theorem C85_total : forall s, exists l, reads1 s l /\ first_pass1 s = map stored l.
Proof. exact first_pass_reads1. Qed.
Print Assumptions C85_total.
Theorem C85_unique : forall s l1 l2, reads1 s l1 -> reads1 s l2 -> l1 = l2.
Proof. exact reads1_unique. Qed.
Print Assumptions C85_unique.
Theorem C85_nothing_lost : forall s l, reads1 s l -> exists ps, Forall2 spelled l ps /\ s = concat ps.
Proof. exact reads1_spelled. Qed.
Print Assumptions C85_nothing_lost.
Theorem C85_same_reading : forall s l, reads1 s l -> Forall known_name l -> reads s l.
Proof. exact reads1_reads. Qed.
Print Assumptions C85_same_reading.
(** "a && b && c" is text for version 2, not for version 1. *)
Theorem C85_text_swallowed_refuted : exists s l1 l2, reads1 s l1 /\ reads s l2 /\ l2 = [TText s] /\ l1 <> l2.
Proof. exact swallowed. Qed.
Print Assumptions C85_text_swallowed_refuted.
Example C85_case : first_pass1 (B "a&b&&c&&##x##{{{v>w}}}[[n|m]]%--&&no&&--%[[]]??q??@@r:s@@!!dump!!##X Y##&&&&&") =
  map stored [TText (B "a&b"); TRef (B "c"); TLang (B "x"); TVar (B "{v>w"); TText (B "}"); TOpen (B "n|m");
    TComment (B "&&no&&"); TClose; TCond (B "q"); TRange (B "r:s"); TDump (B "dump"); TLang (B "X Y"); TRef (B "&")].
Proof. by vm_compute. Qed.

(** ** C86 *)
Theorem C86_balanced : forall th t T data toks, fatherless th -> th !! t = Some T -> reads1 data toks ->
  (compile1 th t data).2 = true <-> balanced 0 toks.
Proof. exact compile1_ok_iff. Qed.
Print Assumptions C86_balanced.
Theorem C86_load : forall th t T data toks, fatherless th -> th !! t = Some T -> reads1 data toks ->
  let '(th', ok) := compile1 th t data in
  fatherless th' /\ (forall y, y ∈ dom th -> y <> t -> th' !! y = th !! y) /\
  if ok then
    balanced 0 toks /\ exists is, layout is toks /\ loaded1 th' (subs_of T) t is /\
      NoDup (flat_map box_locs is) /\ (forall x, x ∈ flat_map box_locs is -> x ∉ dom th)
  else ~ balanced 0 toks /\ exists m, th' !! t = Some (Tmpl (t_name T) (t_root T) m None).
Proof. exact compile1_spec. Qed.
Print Assumptions C86_load.
Theorem C86_new : forall th data toks, fatherless th -> reads1 data toks ->
  (balanced 0 toks -> exists th' t is, new_template1 th data = (th', Some t) /\ t ∉ dom th /\
     (forall y, y ∈ dom th -> th' !! y = th !! y) /\ layout is toks /\ loaded1 th' ∅ t is) /\
  (~ balanced 0 toks -> (new_template1 th data).2 = None).
Proof. exact new_template1_spec. Qed.
Print Assumptions C86_new.
Theorem C86_lookup : forall th t n r, get_template1 th t n = Ok r <-> has th t n r.
Proof. exact get1_has. Qed.
Print Assumptions C86_lookup.
Example C86_case : map (fun s => bool_decide (is_Some (new_template1 ∅ (B s)).2))
  ["[[a]]x[[b]]y[[]]z[[]]"; "[[a]][[]][[]]"; "[[a]][[b]][[]]"; "[[]]"; "%--[[]]--%"; "&& [[a]] &&"; ""]%string
  = [true; false; false; false; true; true; true].
Proof. by vm_compute. Qed.

(** ** C87 *)
Theorem C87_meaning : forall F ord langs th h t data r, compiled th -> closed th -> wf h -> is_Some (th !! t) -> data_at h data ->
  executes1 F ord langs th h t data r <-> exists n, execute1 F ord langs th h n t data = same r.
Proof. exact execute1_meaning. Qed.
Print Assumptions C87_meaning.
Theorem C87_unique : forall F ord langs th h t data r1 r2,
  executes1 F ord langs th h t data r1 -> executes1 F ord langs th h t data r2 -> r1 = r2.
Proof. exact executes1_unique. Qed.
Print Assumptions C87_unique.
Theorem C87_loaded : forall th, built1 th -> compiled th /\ closed th.
Proof. exact built1_closed. Qed.
Print Assumptions C87_loaded.
Example C87_case : forall F langs, map (fun s => run1 F ord0 langs s shop1 (Some 1%positive))
  ["{{n}}&&a:d&&[[a]]{{n}}[[]]"; "@@c:a@@[[a]]<{{n}}>[[]][[a.first]]1[[]]"; "??d>k:a??[[a.blue]]yes[[]][[a]]no[[]]"; "&&x:d>k:b&&[[bblue]]B[[]]"; "&&b&&[[a]]&&b&&[[]]"]%string
  = [Ok (B "ND"); Ok (B "1<N>"); Ok (B "yes"); Ok (B "B"); Ok (B "")].
Proof. intros F langs. vm_compute. reflexivity. Qed.

(** ** C88 *)
Theorem C88_terminates : forall F ord langs th h t data, order_ok ord -> built1 th -> is_Some (th !! t) -> wf h ->
  (forall d, data = Some d -> dataset_at h d /\ acyclic h d) -> exists r, executes1 F ord langs th h t data r.
Proof. exact execute1_ends. Qed.
Print Assumptions C88_terminates.
Theorem C88_all_fuel : forall F ord langs th h t data r, executes1 F ord langs th h t data r ->
  exists n0, forall n, (n0 <= n)%nat -> execute1 F ord langs th h n t data = same r.
Proof. exact executes1_ev. Qed.
Print Assumptions C88_all_fuel.
(** The text that never ends in version 2 (C57). *)
Example C88_case : forall F ord langs h, run1 F ord langs "[[a]]>&&a&&[[]]&&a&&" h None = Ok (B ">") /\
  text_of (run F ord langs "[[a]]>&&a&&[[]]&&a&&" h None) = NoFuel.
Proof. intros F ord langs h. split; vm_compute; reflexivity. Qed.

(** ** C89 *)
Theorem C89_loop_over_other : forall F ord h th lg sc t s d b x v, data_template s d b -> has th t b (Some x) -> found1 h sc d (Some (Some v)) ->
  (forall c xs, v = VRef c -> ~ collection_at h c xs) -> forall r, one1 F ord h th lg (Some sc) t (TRange s) r <-> r = None.
Proof. exact loop1_other. Qed.
Print Assumptions C89_loop_over_other.
Theorem C89_loop_over_nothing : forall F ord h th lg sc t s d b x c, data_template s d b -> has th t b (Some x) ->
  found1 h sc d (Some (Some (VRef c))) -> collection_at h c [] -> forall r, one1 F ord h th lg (Some sc) t (TRange s) r <-> r = Some [].
Proof. exact loop1_empty. Qed.
Print Assumptions C89_loop_over_nothing.
Theorem C89_condition : forall F ord h th lg sc t s d b x v, data_template s d b -> has th t b (Some x) -> found1 h sc d (Some v) ->
  no_text1 F ord h v -> forall r, one1 F ord h th lg (Some sc) t (TCond s) r <-> r = Some [].
Proof. exact condition1_blank. Qed.
Print Assumptions C89_condition.
Theorem C89_nil_element : forall F ord h th lg sc t s r, one1 F ord h th lg (Some (None :: sc)) t (TVar s) r <-> r = None.
Proof. exact nil_element1. Qed.
Print Assumptions C89_nil_element.
(** First component: version 1; second: version 2. *)
Theorem C89_panics_refuted : forall F langs,
  map (fun s => (run1 F ord0 langs s shop1 (Some 1%positive), text_of (run F ord0 langs s shop1 (Some 1%positive))))
    ["@@n:x@@[[x]]one[[]]"; "@@e:x@@[[x]]one[[]]"; "@@zz:x@@[[x]]one[[]]"; "??d:x??[[x]]some[[]]"; "??void:x??[[x]]some[[]]"; "@@z:x@@[[x]]{{n}}[[]]"]%string
  = [(Panic, Ok (B "one")); (Ok [], Ok (B "one")); (Ok (B "one"), Ok (B "one")); (Ok [], Ok (B "some")); (Ok [], Ok (B "some")); (Panic, Panic)].
Proof. exact no_value_differs. Qed.
Print Assumptions C89_panics_refuted.

(** ** C90 *)
Theorem C90_load : forall th th1 t s l, same_but_fathers th th1 -> reads1 s l -> Forall known_name l ->
  same_but_fathers (compile th t s).1 (compile1 th1 t s).1 /\ (compile1 th1 t s).2 = (compile th t s).2.
Proof. exact load_both. Qed.
Print Assumptions C90_load.
Theorem C90_new : forall th th1 s l, same_but_fathers th th1 -> reads1 s l -> Forall known_name l ->
  same_but_fathers (new_template th s).1 (new_template1 th1 s).1 /\ (new_template1 th1 s).2 = (new_template th s).2.
Proof. exact new_both. Qed.
Print Assumptions C90_new.
Theorem C90_execute : forall F ord langs th th1 h t d, same_but_fathers th th1 -> closed th -> rooted th -> own_names th -> straight th ->
  (forall h' out, executes F ord langs th h t d h' out <-> h' = h /\ executes1 F ord langs th1 h t (Some d) (Some out)) /\
  ~ executes1 F ord langs th1 h t (Some d) None.
Proof. exact execute_both. Qed.
Print Assumptions C90_execute.
(** A box of the father: version 2 finds it, version 1 does not. *)
Theorem C90_sibling_refuted : forall F ord langs h, run1 F ord langs "[[a]]A[[]][[b]]&&a&&[[]]&&b&&" h None = Ok (B "") /\
  text_of (run F ord langs "[[a]]A[[]][[b]]&&a&&[[]]&&b&&" h None) = Ok (B "A").
Proof. exact sibling_lost. Qed.
Print Assumptions C90_sibling_refuted.
Example C90_case : forall F langs, map (fun s => (run1 F ord0 langs s shop1 (Some 1%positive), text_of (run F ord0 langs s shop1 (Some 1%positive))))
  ["{{n}}%--x--%&&a:d&&[[a]]{{k}}[[b]]![[]]&&b&&[[]]&&zz&&"; "&&x:d>k:b&&[[bblue]]{{d>k}}[[]]"]%string
  = [(Ok (B "Nblue!"), Ok (B "Nblue!")); (Ok (B "blue"), Ok (B "blue"))].
Proof. intros F langs. vm_compute. reflexivity. Qed.

Example C90_applies : own_names (page "{{n}}&&a:d&&&&zz&&!!dump!![[a|b]]{{k}}[[]]").1 /\ straight (page "{{n}}&&a:d&&&&zz&&!!dump!![[a|b]]{{k}}[[]]").1.
Proof. apply own_check_ok. vm_compute. reflexivity. Qed.

(** ** C91 *)
Theorem C91_string : forall T ps, t_root T = Some ps ->
  exists r, r ≡ₚ map (fun p => B "{" ++ itoa (p_type p) ++ B " " ++ p_data p ++ B "}") ps /\ StronglySorted bytes_le r /\
  tmpl_string1 T = Ok (B "xcore.XLanguage{" ++ join (B " ") r ++ B "}").
Proof. exact string1_sorted. Qed.
Print Assumptions C91_string.
Theorem C91_not_loaded_refuted : tmpl_string1 empty_tmpl = Panic /\ tmpl_string empty_tmpl = B "xcore.XTemplate{}".
Proof. exact string1_not_loaded. Qed.
Print Assumptions C91_not_loaded_refuted.
Example C91_case : match (page1 "x{{f}}a").1 !! (page1 "x{{f}}a").2 with
  | Some T => tmpl_string1 T = Ok (B "xcore.XLanguage{{0 a} {0 x} {7 f}}") | None => False end.
Proof. by vm_compute. Qed.

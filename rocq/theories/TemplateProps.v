(** * Property theorems about compiled templates (C45-C51). *)
From Verif Require Import GoBase GoStrings Regex RegexSyntax RegexProofs DatasetModel LangModel DatasetSpec TemplateModel TemplateSpec
  TemplateProofs2 TemplateProofs3 TemplateProofs4 TemplateProofs5 TemplateProofs6.
Local Open Scope Z_scope.

(** ** C45 *)
Theorem C45_pattern : exists r, regexp_of pattern = Some r /\ (forall s, matches r s = matches meta s) /\
  forall n s, find_all n r s = find_all n meta s.
Proof. exact pattern_denotes. Qed.
Print Assumptions C45_pattern.
Theorem C45_scanner : forall s l, reads s l <-> first_pass s = map stored l.
Proof. exact first_pass_iff. Qed.
Print Assumptions C45_scanner.
Theorem C45_total : forall s, exists l, reads s l /\ first_pass s = map stored l.
Proof. exact first_pass_reads. Qed.
Print Assumptions C45_total.
Theorem C45_unique : forall s l1 l2, reads s l1 -> reads s l2 -> l1 = l2.
Proof. exact reads_unique. Qed.
Print Assumptions C45_unique.
Theorem C45_nothing_lost : forall s l, reads s l -> exists ps, Forall2 spelled l ps /\ s = concat ps.
Proof. exact reads_spelled. Qed.
Print Assumptions C45_nothing_lost.
Example C45_case : first_pass (B "a&b&&c&&##x##{{{v>w}}}[[n|m]]%--&&no&&--%[[]]??q??@@r:s@@!!dump!!##X Y##") =
  map stored [TText (B "a&b"); TRef (B "c"); TLang (B "x"); TText (B "{"); TVar (B "v>w"); TText (B "}"); TOpen (B "n|m");
    TComment (B "&&no&&"); TClose; TCond (B "q"); TRange (B "r:s"); TDump (B "dump"); TText (B "##X Y##")].
Proof. by vm_compute. Qed.

(** ** C46 *)
Theorem C46_plain_text : forall F ord langs th s, no_mark s -> exists th' t, new_template th s = (th', Some t) /\
  (forall h n, execute F ord langs th' (S n) h t None = Ok (h, s)) /\
  (forall h d, chain h d -> exists n0, forall n, (n0 <= n)%nat -> execute F ord langs th' n h t (Some d) = Ok (h, s)).
Proof. exact plain_executes. Qed.
Print Assumptions C46_plain_text.
Example C46_case : first_pass (B "100% plain - # & @ ? ! { [ ] } } %-") = [Param 0 (B "100% plain - # & @ ? ! { [ ] } } %-")].
Proof. by vm_compute. Qed.

(** ** C47 *)
Theorem C47_comment_is_one_element : forall a la body s r lr, reads a la -> no_open_comment la ->
  (forall x y, body <> x ++ B "--%" ++ y) -> line_end s r -> reads r lr ->
  reads (a ++ B "%--" ++ body ++ B "--%" ++ s) (la ++ TComment body :: lr).
Proof. exact reads_comment. Qed.
Print Assumptions C47_comment_is_one_element.
Theorem C47_compiled : forall a la body s r, reads a la -> no_open_comment la ->
  (forall x y, body <> x ++ B "--%" ++ y) -> line_end s r ->
  first_pass (a ++ B "%--" ++ body ++ B "--%" ++ s) = first_pass a ++ Param 1 body :: first_pass r.
Proof. exact first_pass_comment. Qed.
Print Assumptions C47_compiled.
Theorem C47_comment_and_boxes : forall la body lr d, balanced d (la ++ TComment body :: lr) <-> balanced d (la ++ lr).
Proof. exact balanced_comment. Qed.
Print Assumptions C47_comment_and_boxes.
Theorem C47_no_output : forall F ord langs th n h t data,
  execute F ord langs (without_comments <$> th) n h t data = execute F ord langs th n h t data.
Proof. exact execute_erase. Qed.
Print Assumptions C47_no_output.
Definition nl : bytes := [ascii_of_nat 10].
Definition crlf : bytes := [ascii_of_nat 13; ascii_of_nat 10].
Example C47_case : forall F ord langs,
  let run s := let '(th, t) := new_template ∅ s in match t with Some t => execute F ord langs th 5 ∅ t None | None => Panic end in
  run (B "a%-- [[x]] {{y}} -% --%" ++ nl ++ B "b%----%c%--z--%" ++ crlf ++ B "d") = Ok (∅, B "abc" ++ nl ++ B "d").
Proof. by vm_compute. Qed.

(** ** C48 *)
Theorem C48_balanced : forall th t T data toks, th !! t = Some T -> reads data toks -> (compile th t data).2 = true <-> balanced 0 toks.
Proof. exact compile_balanced. Qed.
Print Assumptions C48_balanced.
Theorem C48_new_template : forall th data toks, reads data toks -> (exists t, (new_template th data).2 = Some t) <-> balanced 0 toks.
Proof. exact new_template_balanced. Qed.
Print Assumptions C48_new_template.
Example C48_case : map (fun s => bool_decide (is_Some (new_template ∅ (B s)).2))
  ["[[a]]x[[b]]y[[]]z[[]]"; "[[a]][[]][[]]"; "[[a]][[b]][[]]"; "[[]]"; "%--[[]]--%"; "[[A]][[]]"; ""]%string
  = [true; false; false; false; true; false; true].
Proof. by vm_compute. Qed.

(** ** C49 *)
Theorem C49_boxes : forall th data toks, reads data toks -> balanced 0 toks ->
  exists th' t is T, new_template th data = (th', Some t) /\ layout is toks /\ loaded th' ∅ t is /\
    t ∉ dom th /\ t ∉ flat_map box_locs is /\ NoDup (flat_map box_locs is) /\ (forall x, x ∈ flat_map box_locs is -> x ∉ dom th) /\
    th' !! t = Some T /\ t_name T = [] /\ t_father T = None /\ (forall y, y ∈ dom th -> th' !! y = th !! y).
Proof. exact new_template_boxes. Qed.
Print Assumptions C49_boxes.
Theorem C49_load_boxes : forall th t T data toks, th !! t = Some T -> reads data toks -> balanced 0 toks ->
  exists th' is T', compile th t data = (th', true) /\ layout is toks /\ loaded th' (subs_of T) t is /\
    NoDup (flat_map box_locs is) /\ (forall x, x ∈ flat_map box_locs is -> x ∉ dom th) /\
    th' !! t = Some T' /\ t_name T' = t_name T /\ t_father T' = t_father T /\ (forall y, y ∈ dom th -> y <> t -> th' !! y = th !! y).
Proof. exact load_boxes. Qed.
Print Assumptions C49_load_boxes.
Definition root_at (th : theap) (x : option loc) : list param :=
  match x with Some x => match th !! x with Some T => default [] (t_root T) | None => [] end | None => [] end.
Definition sub_at (th : theap) (x : option loc) (name : string) : option loc :=
  match x with Some x => match th !! x with Some T => subs_of T !! B name | None => None end | None => None end.
Example C49_case :
  let '(th, t) := new_template ∅ (B "1[[a|b||]]2[[c]]3[[]]4{{x}}[[]]5[[b]]6[[]]7[[|]]8[[]]") in
  (root_at th t, root_at th (sub_at th t "a"), root_at th (sub_at th t "b"), root_at th (sub_at th (sub_at th t "a") "c"),
   sub_at th t "c", sub_at th t "", sub_at th t "|")
  = ([Param 0 (B "1"); Param 0 (B "5"); Param 0 (B "7")], [Param 0 (B "2"); Param 0 (B "4"); Param 7 (B "x")], [Param 0 (B "6")],
     [Param 0 (B "3")], None, None, None).
Proof. by vm_compute. Qed.

(** ** C50 *)
Theorem C50_failed_load : forall th t T data toks, th !! t = Some T -> reads data toks -> ~ balanced 0 toks ->
  exists th' m, compile th t data = (th', false) /\ th' !! t = Some (Tmpl (t_name T) (t_root T) m (t_father T)) /\
    (forall y, y ∈ dom th -> y <> t -> th' !! y = th !! y).
Proof. exact failed_load. Qed.
Print Assumptions C50_failed_load.
(** A load that fails changes what the template renders: &&a&& was "old", now it is "new". *)
Theorem C50_debris_refuted : exists data1 data2 th1 t th2, forall F ord langs h,
  new_template ∅ data1 = (th1, Some t) /\ compile th1 t data2 = (th2, false) /\
  execute F ord langs th1 5 h t None = Ok (h, B "old") /\ execute F ord langs th2 5 h t None = Ok (h, B "new").
Proof. exact debris. Qed.
Print Assumptions C50_debris_refuted.
(** Loading a second text keeps the sub templates of the first one. *)
Example C50_case :
  let '(th1, t) := new_template ∅ (B "[[a]]first[[]]") in
  match t with
  | Some t => let '(th2, ok) := compile th1 t (B "&&a&&[[b]]second[[]]") in
              forall F ord langs h, ok = true /\ execute F ord langs th2 5 h t None = Ok (h, B "first")
  | None => False
  end.
Proof. by vm_compute. Qed.

(** ** C51 *)
Theorem C51_lookup : forall th t name r, visible th t name r <-> exists k, get_template k th t name = Ok r.
Proof. exact get_template_visible. Qed.
Print Assumptions C51_lookup.
Theorem C51_unique : forall th t name r1 r2, visible th t name r1 -> visible th t name r2 -> r1 = r2.
Proof. exact visible_unique. Qed.
Print Assumptions C51_unique.
Theorem C51_inner_boxes_hidden : forall th old t is name x T, th !! t = Some T -> t_father T = None ->
  loaded th old t is -> visible th t name (Some x) ->
  defines is name x \/ (old !! name = Some x /\ forall y, ~ defines is name y).
Proof. exact visible_outside. Qed.
Print Assumptions C51_inner_boxes_hidden.
Definition get_at (th : theap) (x : option loc) (name : string) : option loc :=
  match x with Some x => match get_template 9 th x (B name) with Ok r => r | _ => None end | None => None end.
Example C51_case :
  let '(th, t) := new_template ∅ (B "[[a]][[b]]1[[]][[]][[c]]2[[]][[b]]3[[]]") in
  (root_at th (get_at th t "b"), root_at th (get_at th (get_at th t "a") "b"), root_at th (get_at th (get_at th t "a") "c"),
   root_at th (get_at th (get_at th (get_at th t "a") "b") "c"), get_at th t "zz")
  = ([Param 0 (B "3")], [Param 0 (B "1")], [Param 0 (B "2")], [Param 0 (B "2")], None).
Proof. by vm_compute. Qed.

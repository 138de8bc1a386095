(** * Property theorems about execution and clones of templates (C52-C59). *)
From Verif Require Import GoBase GoStrings DatasetModel LangModel DatasetSpec DatasetProofs3 TemplateModel TemplateSpec
  RenderSpec RenderProofs5 RenderProofs6 RenderProofs7 RenderProofs9 RenderProofs10 RenderProofs11.
Local Open Scope Z_scope.

(** ** C52 *)
Theorem C52_meaning : forall F ord langs th h t d h' out, compiled th ->
  (exists n, execute F ord langs th n h t (Some d) = Ok (h', out)) <-> executes F ord langs th h t d h' out.
Proof. exact execute_meaning. Qed.
Print Assumptions C52_meaning.
Theorem C52_unique : forall F ord langs th h t d h1 o1 h2 o2,
  executes F ord langs th h t d h1 o1 -> executes F ord langs th h t d h2 o2 -> h1 = h2 /\ o1 = o2.
Proof. exact executes_unique. Qed.
Print Assumptions C52_unique.
Theorem C52_scope_restored : forall F ord th n lg h xs t st' out, compiled th -> xs <> [] ->
  injector F ord th n lg (h, Some xs) t = Ok (st', out) -> st'.2 = Some xs.
Proof. exact scope_restored. Qed.
Print Assumptions C52_scope_restored.
(** What loading makes satisfies the hypotheses used here and below. *)
Theorem C52_loaded : forall th, built th -> compiled th /\ closed th /\ rooted th /\ consistent th.
Proof. exact built_ok. Qed.
Print Assumptions C52_loaded.
Definition words : nat -> option lang := fun k => if Nat.eqb k 7 then Some (lset (new_lang [] []) (B "hi") (B "Bonjour")) else None.
Definition shop2 : heap := list_to_map
  [(1%positive, ds [("c"%string, VRef 2); ("d"%string, VRef 5); ("n"%string, VStr (B "N")); ("k"%string, VStr (B "red")); ("#"%string, VOther 7)]);
   (2%positive, OColl [Some 3%positive; Some 4%positive; Some 5%positive]);
   (3%positive, ds [("n"%string, VStr (B "first"))]); (4%positive, ds [("m"%string, VInt KInt 7)]); (5%positive, ds [("n"%string, VStr (B "D"))])].
Example C52_case : forall F, let run s := text_of (run F ord0 words s shop2 (Some 1%positive)) in
  run "##hi## {{n}}{{zz}}{{d>n}};@@c:l@@;??k:x??;&&:k:x.&&;&&y:d&&[[l]]({{.counter}}{{n}}{{m}})[[]][[l.last]]<{{n}}>[[]][[x]]base[[]][[x.red]]RED[[]][[y]]y={{n}}{{k}}[[]]"%string
  = Ok (B "Bonjour ND;(1first)(2N7)<D>;RED;RED;y=Dred").
Proof. intros F. vm_compute. reflexivity. Qed.

(** ** C53 *)
Theorem C53_only_counters : forall F ord langs th n h t d h' out, compiled th ->
  execute F ord langs th n h t (Some d) = Ok (h', out) -> counted h h'.
Proof. exact execute_counted. Qed.
Print Assumptions C53_only_counters.
Theorem C53_loop_free : forall F ord langs th n h t d h' out, compiled th -> loop_free th t ->
  execute F ord langs th n h t (Some d) = Ok (h', out) -> h' = h.
Proof. exact execute_loop_free. Qed.
Print Assumptions C53_loop_free.
Example C53_case : forall F langs, let h' := heap_of (run F ord0 langs "@@c:a@@[[a]]x[[]]" shop (Some 1%positive)) in
  map (fun l => match h' !! l with Some (ODs m) => m !! B ".counter" | _ => None end) [1; 3; 4; 5]%positive
  = [None; Some (VInt KInt 1); Some (VInt KInt 2); None].
Proof. intros F langs. vm_compute. reflexivity. Qed.

(** ** C54 *)
Theorem C54_not_repeatable_refuted : exists th t h d, built th /\ forall F langs, exists h1 h2,
  execute F ord0 langs th 30 h t (Some d) = Ok (h1, B "xx") /\ execute F ord0 langs th 30 h1 t (Some d) = Ok (h2, B "1xx").
Proof. exact not_repeatable. Qed.
Print Assumptions C54_not_repeatable_refuted.
Theorem C54_repeatable_without_loops : forall F ord langs th n h t d h' out, compiled th -> loop_free th t ->
  execute F ord langs th n h t (Some d) = Ok (h', out) -> execute F ord langs th n h' t (Some d) = Ok (h', out).
Proof. exact execute_again. Qed.
Print Assumptions C54_repeatable_without_loops.

(** ** C55 *)
Theorem C55_condition : forall F ord th lg h sc t s d b x r h' out, data_template s d b -> visible th t b (Some x) ->
  visible th t (dotted b (B "none")) None -> found h sc d r -> blank F ord h r ->
  renders_one F ord th lg h sc t (TCond s) h' out <-> renders F ord th lg h sc x h' out.
Proof. exact condition_without_value. Qed.
Print Assumptions C55_condition.
Theorem C55_loop : forall F ord th lg h sc t s d b x r h' out, data_template s d b -> visible th t b (Some x) ->
  visible th t (dotted b (B "none")) None -> found h sc d r -> (forall c xs, r = Some (VRef c) -> collection_at h c xs -> xs = []) ->
  renders_one F ord th lg h sc t (TRange s) h' out <-> renders F ord th lg h sc x h' out.
Proof. exact loop_without_elements. Qed.
Print Assumptions C55_loop.
Theorem C55_base_rendered_refuted : forall F langs,
  text_of (run F ord0 langs "??x??[[x]]shown[[]]" shop (Some 1%positive)) = Ok (B "shown") /\
  text_of (run F ord0 langs "??void:x??[[x]]shown[[]]" shop (Some 1%positive)) = Ok (B "shown") /\
  text_of (run F ord0 langs "@@e:x@@[[x]]one[[]]" shop (Some 1%positive)) = Ok (B "one") /\
  text_of (run F ord0 langs "@@zz:x@@[[x]]one[[]]" shop (Some 1%positive)) = Ok (B "one").
Proof. exact no_value_no_none. Qed.
Print Assumptions C55_base_rendered_refuted.

(** ** C56 *)
Theorem C56_text : forall F ord langs th h t h' out, compiled th -> closed th ->
  (exists n, execute F ord langs th n h t None = Ok (h', out)) <-> h' = h /\ nil_renders th t (Some out).
Proof. exact execute_nil. Qed.
Print Assumptions C56_text.
Theorem C56_panic : forall F ord langs th h t, compiled th -> closed th -> is_Some (th !! t) ->
  (exists n, execute F ord langs th n h t None = Panic) <-> nil_renders th t None.
Proof. exact execute_nil_panics. Qed.
Print Assumptions C56_panic.
Example C56_case : forall F ord langs h, let run s := text_of (run F ord langs s h None) in
  map run ["a{{x}}@@c:b@@&&b&&!!dump!!##e##??z:b??[[b]]B[[]]"; "&&b:d&&[[b]][[]]"; "&&zz:d&&"; "&&zz:d:p&&"]%string
  = [Ok (B "aBB"); Panic; Ok (B ""); Panic].
Proof. intros F ord langs h. vm_compute. reflexivity. Qed.

(** ** C57 *)
Theorem C57_terminates : forall F ord langs th rank h t d, order_ok ord -> compiled th -> closed th -> rooted th -> ranked th rank ->
  is_Some (th !! t) -> wf h -> dataset_at h d -> acyclic h d -> complete h d ->
  exists n h' out, execute F ord langs th n h t (Some d) = Ok (h', out).
Proof. exact execute_ends. Qed.
Print Assumptions C57_terminates.
Theorem C57_self_reference : forall F ord langs th t T l s a, th !! t = Some T -> t_root T = Some (map stored l) -> TRef s ∈ l ->
  separated ":"%char s a [] -> visible th t a (Some t) -> forall n h data r, execute F ord langs th n h t data <> Ok r.
Proof. exact self_reference_executes. Qed.
Print Assumptions C57_self_reference.
Theorem C57_endless : forall F ord langs th t T pre s rest a, th !! t = Some T ->
  t_root T = Some (map stored (map TText pre ++ TRef s :: rest)) -> separated ":"%char s a [] -> visible th t a (Some t) ->
  forall n h, execute F ord langs th n h t None = NoFuel /\ forall d, dget n h d (B "#") <> Panic -> execute F ord langs th n h t (Some d) = NoFuel.
Proof. exact endless_executes. Qed.
Print Assumptions C57_endless.
Theorem C57_box_calls_itself_refuted : let th := (page "[[a]]>&&a&&[[]]&&a&&").1 in exists a, is_Some (th !! a) /\
  forall F ord langs n h, execute F ord langs th n h a None = NoFuel.
Proof. exact box_calls_itself. Qed.
Print Assumptions C57_box_calls_itself_refuted.
(** Boxes one level deep, called from the top only. *)
Example C57_case : exists rank, ranked (page "{{n}}@@c:a@@&&b&&??d:a??[[a]]x{{n}}[[]][[b]]y[[]]").1 rank.
Proof.
  exists (fun x => if bool_decide (x = (page "{{n}}@@c:a@@&&b&&??d:a??[[a]]x{{n}}[[]][[b]]y[[]]").2) then 1 else 0)%nat.
  apply rank_check_ok. vm_compute. reflexivity.
Qed.

(** ** C58 *)
Theorem C58_clone_renders : forall tord th, any_order tord -> closed th -> consistent th ->
  forall F ord langs n t th' c, is_Some (th !! t) -> tclone tord n th t = Ok (th', c) ->
  th !! c = None /\ (forall k h data, execute F ord langs th' k h c data = execute F ord langs th k h t data) /\
  forall x k h data, is_Some (th !! x) -> execute F ord langs th' k h x data = execute F ord langs th k h x data.
Proof. exact clone_executes. Qed.
Print Assumptions C58_clone_renders.
Theorem C58_clone_terminates : forall tord th, any_order tord -> closed th -> consistent th ->
  forall t, rooted th -> is_Some (th !! t) -> exists n th' c, tclone tord n th t = Ok (th', c).
Proof. exact clone_total. Qed.
Print Assumptions C58_clone_terminates.
Theorem C58_clone_keeps : forall tord th n t th' c, any_order tord -> compiled th -> closed th -> rooted th -> consistent th -> is_Some (th !! t) ->
  tclone tord n th t = Ok (th', c) ->
  compiled th' /\ closed th' /\ rooted th' /\ is_Some (th' !! c) /\ forall x, is_Some (th !! x) -> is_Some (th' !! x).
Proof. exact clone_keeps. Qed.
Print Assumptions C58_clone_keeps.
Definition cloned (s : string) : theap * loc := match tclone tord0 9 (page s).1 (page s).2 with Ok r => r | _ => (∅, 1%positive) end.
Example C58_case : forall F langs, let s := "@@c:a|b@@[[a]]{{n}}[[b]],[[]]&&b&&[[]]&&a&&"%string in
  bool_decide ((cloned s).2 = (page s).2) = false /\
  text_of (execute F ord0 langs (cloned s).1 9 shop (cloned s).2 (Some 1%positive)) = Ok (B "N,") /\
  text_of (execute F ord0 langs (page s).1 9 shop (page s).2 (Some 1%positive)) = Ok (B "N,").
Proof. intros F langs. vm_compute. done. Qed.

(** ** C59 *)
Theorem C59_boxes_change_hands : forall tord th, any_order tord -> closed th -> consistent th -> rooted th ->
  forall n t T th' c, th !! t = Some T -> tclone tord n th t = Ok (th', c) ->
    c <> t /\ (forall k x, subs_of T !! k = Some x -> exists X, th' !! x = Some X /\ t_father X = Some c) /\
    ((forall k1 k2 x, subs_of T !! k1 = Some x -> subs_of T !! k2 = Some x -> k1 = k2) ->
     exists C, th' !! c = Some C /\ forall k y, subs_of C !! k = Some y -> exists Y, th' !! y = Some Y /\ t_father Y = Some t).
Proof. exact clone_ties. Qed.
Print Assumptions C59_boxes_change_hands.
Theorem C59_not_independent : forall tord th n t T th' c th2 tm name, any_order tord -> closed th -> consistent th -> rooted th ->
  th !! t = Some T -> t_father T = None -> subs_of T !! name = None ->
  (forall k1 k2 x, subs_of T !! k1 = Some x -> subs_of T !! k2 = Some x -> k1 = k2) ->
  tclone tord n th t = Ok (th', c) ->
  (forall z Z, th' !! z = Some Z -> th2 !! z = Some Z) -> th' !! tm = None ->
  (forall k x X, subs_of T !! k = Some x -> th !! x = Some X -> subs_of X !! name = None ->
     visible (add_template th t name tm) x name (Some tm) /\ visible (add_template th2 t name tm) x name None) /\
  (forall C k y Y, th' !! c = Some C -> subs_of C !! k = Some y -> th' !! y = Some Y -> subs_of Y !! name = None ->
     visible (add_template th2 t name tm) y name (Some tm)).
Proof. exact clone_add. Qed.
Print Assumptions C59_not_independent.
(** The original, its clone, and the original had it not been cloned, after AddTemplate("new", "N") on the original. *)
Example C59_case : forall F ord langs h, let s := "[[a]]<&&new&&>[[]]&&a&&"%string in
  let add th := match new_template th (B "N") with (th2, Some x) => add_template th2 (page s).2 (B "new") x | _ => ∅ end in
  (text_of (execute F ord langs (add (cloned s).1) 9 h (page s).2 None), text_of (execute F ord langs (add (cloned s).1) 9 h (cloned s).2 None),
   text_of (execute F ord langs (add (page s).1) 9 h (page s).2 None))
  = (Ok (B "<>"), Ok (B "<N>"), Ok (B "<N>")).
Proof. intros F ord langs h. vm_compute. reflexivity. Qed.

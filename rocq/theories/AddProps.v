(** * Property theorems about AddTemplate (C51, C67, C68). *)
From Verif Require Import GoBase GoStrings DatasetModel LangModel TemplateModel TemplateSpec AddProofs.
Local Open Scope Z_scope.

(** ** C51: what AddTemplate makes visible and from where *)
Theorem C51_add_template : forall th t name tm T M, th !! t = Some T -> th !! tm = Some M -> t <> tm ->
  let th' := add_template th t name tm in
  visible th' t name (Some tm) /\
  (forall n r, subs_of M !! n = None -> visible th' tm n r <-> visible th' t n r) /\
  (forall n x, subs_of M !! n = Some x -> visible th' tm n (Some x)) /\
  (forall n x, n <> name -> subs_of T !! n = Some x -> visible th' t n (Some x)) /\
  (forall y, y <> t -> y <> tm -> th' !! y = th !! y).
Proof. exact add_template_visible. Qed.
Print Assumptions C51_add_template.
Definition found (th : theap) (t : loc) (name : string) : option loc := match get_template 9 th t (B name) with Ok r => r | _ => None end.
Example C51_add_case :
  match new_template ∅ (B "[[a]]A[[]]") with
  | (th1, Some t) =>
      match new_template th1 (B "[[b]]B[[]]") with
      | (th2, Some m) =>
          let th := add_template th2 t (B "m") m in
          found th2 m "a" = None /\ found th m "a" = found th t "a" /\ found th m "a" <> None /\
          found th t "m" = Some m /\ found th m "m" = Some m /\ found th m "b" = found th2 m "b" /\ found th t "b" = None
      | _ => False
      end
  | _ => False
  end.
Proof. vm_compute. split_and!; try reflexivity. discriminate. Qed.

(** ** C67: looking up never ends exactly when the fathers go round without the name *)
Theorem C67_endless : forall th t name, (forall k, get_template k th t name = NoFuel) <-> no_end th t name.
Proof. exact endless_lookup. Qed.
Print Assumptions C67_endless.
Theorem C67_added_to_itself_refuted : forall th t n name T, th !! t = Some T -> name <> n -> subs_of T !! name = None ->
  forall k, get_template k (add_template th t n t) t name = NoFuel.
Proof. exact self_added. Qed.
Print Assumptions C67_added_to_itself_refuted.
Theorem C67_added_below_refuted : forall th t n tm name T M, th !! t = Some T -> th !! tm = Some M -> t <> tm ->
  rtc (fathered th) t tm -> name <> n ->
  (forall x, rtc (fathered th) t x -> exists X, th !! x = Some X /\ subs_of X !! name = None) ->
  forall k, get_template k (add_template th t n tm) tm name = NoFuel.
Proof. exact ancestor_added. Qed.
Print Assumptions C67_added_below_refuted.
Theorem C67_execute_refuted : forall F ord langs th t n T name rest h, th !! t = Some T -> name <> n -> subs_of T !! name = None ->
  t_root T = Some (Param 3 name :: rest) -> ":"%char ∉ name ->
  forall k, execute F ord langs (add_template th t n t) k h t None = NoFuel.
Proof. exact self_added_executes. Qed.
Print Assumptions C67_execute_refuted.
(** The template [&&z&&] renders nothing; added to itself it never returns.  Registered under
    the name that is asked for, the lookup ends. *)
Example C67_case : forall F ord langs h,
  match new_template ∅ (B "&&z&&") with
  | (th, Some t) =>
      execute F ord langs th 9 h t None = Ok (h, []) /\
      execute F ord langs (add_template th t (B "a") t) 9 h t None = NoFuel /\
      get_template 1 (add_template th t (B "a") t) t (B "a") = Ok (Some t)
  | _ => False
  end.
Proof. intros F ord langs h. vm_compute. split_and!; reflexivity. Qed.
(** A box holding its own enclosing template. *)
Example C67_below_case :
  match new_template ∅ (B "[[a]]A[[]]") with
  | (th, Some t) =>
      match found th t "a" with
      | Some a => get_template 99 (add_template th a (B "up") t) t (B "z") = NoFuel /\ get_template 99 th t (B "z") = Ok None
      | None => False
      end
  | _ => False
  end.
Proof. vm_compute. split; reflexivity. Qed.

(** ** C68: a template has one father, the last one it was added to *)
Theorem C68_last_parent : forall th t1 t2 x T1 T2 X n1 n2, th !! t1 = Some T1 -> th !! t2 = Some T2 -> th !! x = Some X ->
  t1 <> t2 -> x <> t1 -> x <> t2 ->
  let th' := add_template (add_template th t1 n1 x) t2 n2 x in
  visible th' t1 n1 (Some x) /\ visible th' t2 n2 (Some x) /\
  (forall name r, subs_of X !! name = None -> visible th' x name r <-> visible th' t2 name r) /\
  (forall name y, subs_of T2 !! name = Some y -> name <> n2 -> visible th' t2 name (Some y)).
Proof. exact second_parent. Qed.
Print Assumptions C68_last_parent.
(** The first parent renders differently once the template was added to another one. *)
Theorem C68_first_parent_refuted : exists data1 data2 datax, forall F ord langs h,
  match new_template ∅ data1 with
  | (th1, Some t1) =>
      match new_template th1 data2 with
      | (th2, Some t2) =>
          match new_template th2 datax with
          | (th3, Some x) =>
              let th4 := add_template th3 t1 (B "x") x in let th5 := add_template th4 t2 (B "x") x in
              execute F ord langs th4 9 h t1 None = Ok (h, B "one") /\ execute F ord langs th5 9 h t1 None = Ok (h, B "two")
          | _ => False
          end
      | _ => False
      end
  | _ => False
  end.
Proof. exact two_parents. Qed.
Print Assumptions C68_first_parent_refuted.
Example C68_case :
  match new_template ∅ (B "[[y]]one[[]]") with
  | (th1, Some t1) =>
      match new_template th1 (B "[[y]]two[[]]") with
      | (th2, Some t2) =>
          match new_template th2 (B "x") with
          | (th3, Some x) =>
              let th4 := add_template th3 t1 (B "x") x in let th5 := add_template th4 t2 (B "x") x in
              found th4 x "y" = found th1 t1 "y" /\ found th5 x "y" = found th2 t2 "y" /\ found th5 t1 "x" = Some x
          | _ => False
          end
      | _ => False
      end
  | _ => False
  end.
Proof. vm_compute. split_and!; reflexivity. Qed.

(** * Printing templates. *)
From Verif Require Import GoBase GoStrings GoStringsProofs DatasetModel LangModel TemplateModel PrintModel.
Local Open Scope Z_scope.

Lemma tmpl_string_sorted T ps quote : t_root T = Some ps ->
  (exists r, r ≡ₚ map (fun p => B "{" ++ itoa (p_type p) ++ B " " ++ p_data p ++ B "}") ps /\ StronglySorted bytes_le r /\
    tmpl_string T = B "xcore.XTemplate{" ++ join (B " ") r ++ B "}") /\
  (exists r, r ≡ₚ map (fun p => B "xcore.XTemplateParam{ParamType:" ++ itoa (p_type p) ++ B ", Data:" ++ quote (p_data p) ++ B "}") ps /\
    StronglySorted bytes_le r /\ tmpl_gostring quote T = B "#xcore.XTemplate{" ++ join (B " ") r ++ B "}").
Proof.
  intros E. unfold tmpl_string, tmpl_gostring. rewrite E. split; eexists; (split; [|split; [|reflexivity]]).
  1,2: by apply (proj1 (sort_strings_spec _ _) eq_refl). all: by apply (proj1 (sort_strings_spec _ _) eq_refl).
Qed.
Lemma tmpl_string_order T1 T2 ps1 ps2 quote : t_root T1 = Some ps1 -> t_root T2 = Some ps2 -> ps1 ≡ₚ ps2 ->
  tmpl_string T1 = tmpl_string T2 /\ tmpl_gostring quote T1 = tmpl_gostring quote T2.
Proof.
  intros E1 E2 Hp. unfold tmpl_string, tmpl_gostring. rewrite E1, E2.
  by rewrite (sort_strings_perm _ _ (Permutation_map param_text Hp)), (sort_strings_perm _ _ (Permutation_map (param_gotext quote) Hp)).
Qed.
(** What two templates of the heap print and render. *)
Definition prints_alike (th : theap) (t1 t2 : loc) (quote : bytes -> bytes) : Prop :=
  match th !! t1, th !! t2 with
  | Some T1, Some T2 => tmpl_string T1 = tmpl_string T2 /\ tmpl_gostring quote T1 = tmpl_gostring quote T2
  | _, _ => False
  end.
Lemma roots_alike th t1 t2 ps1 ps2 quote : (t_root <$> th !! t1, t_root <$> th !! t2) = (Some (Some ps1), Some (Some ps2)) ->
  ps1 ≡ₚ ps2 -> prints_alike th t1 t2 quote.
Proof.
  intros E Hp. unfold prints_alike. destruct (th !! t1) as [T1|]; [|done]. destruct (th !! t2) as [T2|]; [|done].
  injection E as E1 E2. by eapply tmpl_string_order.
Qed.
Lemma alike_witness data1 data2 ps1 ps2 o1 o2 : ps1 ≡ₚ ps2 ->
  (forall F ord langs h,
   match new_template ∅ data1 with
   | (th1, Some t1) =>
       match new_template th1 data2 with
       | (th2, Some t2) =>
           (t_root <$> th2 !! t1, t_root <$> th2 !! t2) = (Some (Some ps1), Some (Some ps2)) /\
           execute F ord langs th2 9 h t1 None = Ok (h, o1) /\ execute F ord langs th2 9 h t2 None = Ok (h, o2)
       | _ => False
       end
   | _ => False
   end) ->
  forall F ord langs h quote,
  match new_template ∅ data1 with
  | (th1, Some t1) =>
      match new_template th1 data2 with
      | (th2, Some t2) =>
          prints_alike th2 t1 t2 quote /\
          execute F ord langs th2 9 h t1 None = Ok (h, o1) /\ execute F ord langs th2 9 h t2 None = Ok (h, o2)
      | _ => False
      end
  | _ => False
  end.
Proof.
  intros Hp H F ord langs h quote. specialize (H F ord langs h).
  destruct (new_template ∅ data1) as [th1 [t1|]]; [|done]. destruct (new_template th1 data2) as [th2 [t2|]]; [|done].
  destruct H as [H1 H2]. split; [|done]. by eapply roots_alike.
Qed.
Lemma print_loses_order : exists data1 data2 o1 o2, o1 <> o2 /\ forall F ord langs h quote,
  match new_template ∅ data1 with
  | (th1, Some t1) =>
      match new_template th1 data2 with
      | (th2, Some t2) =>
          prints_alike th2 t1 t2 quote /\
          execute F ord langs th2 9 h t1 None = Ok (h, o1) /\ execute F ord langs th2 9 h t2 None = Ok (h, o2)
      | _ => False
      end
  | _ => False
  end.
Proof.
  exists (B "&&x&&&&y&&[[x]]1[[]][[y]]2[[]]"), (B "&&y&&&&x&&[[x]]1[[]][[y]]2[[]]"), (B "12"), (B "21"). split; [done|].
  apply (alike_witness _ _ [Param 3 (B "x"); Param 3 (B "y")] [Param 3 (B "y"); Param 3 (B "x")]); [apply Permutation_swap|].
  intros F ord langs h. vm_compute. split_and!; reflexivity.
Qed.
(** Boxes are not printed. *)
Lemma print_loses_boxes : exists data1 data2 o1 o2, o1 <> o2 /\ forall F ord langs h quote,
  match new_template ∅ data1 with
  | (th1, Some t1) =>
      match new_template th1 data2 with
      | (th2, Some t2) =>
          prints_alike th2 t1 t2 quote /\
          execute F ord langs th2 9 h t1 None = Ok (h, o1) /\ execute F ord langs th2 9 h t2 None = Ok (h, o2)
      | _ => False
      end
  | _ => False
  end.
Proof.
  exists (B "&&x&&[[x]]1[[]]"), (B "&&x&&[[x]]2[[]]"), (B "1"), (B "2"). split; [done|].
  apply (alike_witness _ _ [Param 3 (B "x")] [Param 3 (B "x")]); [done|].
  intros F ord langs h. vm_compute. split_and!; reflexivity.
Qed.
(** One text can look like several elements. *)
Lemma print_ambiguous : exists data1 data2 o1 o2, o1 <> o2 /\ forall F ord langs h,
  match new_template ∅ data1 with
  | (th1, Some t1) =>
      match new_template th1 data2 with
      | (th2, Some t2) =>
          match th2 !! t1, th2 !! t2 with
          | Some T1, Some T2 => tmpl_string T1 = tmpl_string T2 /\ length (default [] (t_root T1)) <> length (default [] (t_root T2))
          | _, _ => False
          end /\
          execute F ord langs th2 9 h t1 None = Ok (h, o1) /\ execute F ord langs th2 9 h t2 None = Ok (h, o2)
      | _ => False
      end
  | _ => False
  end.
Proof.
  exists (B "a%--c--%b"), (B "a} {0 b} {1 c"), (B "ab"), (B "a} {0 b} {1 c"). split; [done|].
  intros F ord langs h. vm_compute. split_and!; try reflexivity. discriminate.
Qed.

(** * Property theorems about printing templates (C72). *)
From Verif Require Import GoBase GoStrings GoStringsProofs DatasetModel LangModel TemplateModel PrintModel PrintProofs.
Local Open Scope Z_scope.

(** ** C72 *)
Theorem C72_text : forall T ps quote, t_root T = Some ps ->
  (exists r, r ≡ₚ map (fun p => B "{" ++ itoa (p_type p) ++ B " " ++ p_data p ++ B "}") ps /\ StronglySorted bytes_le r /\
    tmpl_string T = B "xcore.XTemplate{" ++ join (B " ") r ++ B "}") /\
  (exists r, r ≡ₚ map (fun p => B "xcore.XTemplateParam{ParamType:" ++ itoa (p_type p) ++ B ", Data:" ++ quote (p_data p) ++ B "}") ps /\
    StronglySorted bytes_le r /\ tmpl_gostring quote T = B "#xcore.XTemplate{" ++ join (B " ") r ++ B "}").
Proof. exact tmpl_string_sorted. Qed.
Print Assumptions C72_text.
Theorem C72_order : forall T1 T2 ps1 ps2 quote, t_root T1 = Some ps1 -> t_root T2 = Some ps2 -> ps1 ≡ₚ ps2 ->
  tmpl_string T1 = tmpl_string T2 /\ tmpl_gostring quote T1 = tmpl_gostring quote T2.
Proof. exact tmpl_string_order. Qed.
Print Assumptions C72_order.
(** Templates that print the same and render differently. *)
Theorem C72_order_lost_refuted : exists data1 data2 o1 o2, o1 <> o2 /\ forall F ord langs h quote,
  match new_template ∅ data1 with
  | (th1, Some t1) =>
      match new_template th1 data2 with
      | (th2, Some t2) =>
          prints_alike th2 t1 t2 quote /\
          execute F ord langs th2 9 h t1 None = Ok (h, o1) /\ execute F ord langs th2 9 h t2 None = Ok (h, o2)
      | _ => False
      end
  | _ => False
  end.
Proof. exact print_loses_order. Qed.
Print Assumptions C72_order_lost_refuted.
Theorem C72_boxes_lost_refuted : exists data1 data2 o1 o2, o1 <> o2 /\ forall F ord langs h quote,
  match new_template ∅ data1 with
  | (th1, Some t1) =>
      match new_template th1 data2 with
      | (th2, Some t2) =>
          prints_alike th2 t1 t2 quote /\
          execute F ord langs th2 9 h t1 None = Ok (h, o1) /\ execute F ord langs th2 9 h t2 None = Ok (h, o2)
      | _ => False
      end
  | _ => False
  end.
Proof. exact print_loses_boxes. Qed.
Print Assumptions C72_boxes_lost_refuted.
Theorem C72_ambiguous_refuted : exists data1 data2 o1 o2, o1 <> o2 /\ forall F ord langs h,
  match new_template ∅ data1 with
  | (th1, Some t1) =>
      match new_template th1 data2 with
      | (th2, Some t2) =>
          match th2 !! t1, th2 !! t2 with
          | Some T1, Some T2 => tmpl_string T1 = tmpl_string T2 /\ length (default [] (t_root T1)) <> length (default [] (t_root T2))
          | _, _ => False
          end /\
          execute F ord langs th2 9 h t1 None = Ok (h, o1) /\ execute F ord langs th2 9 h t2 None = Ok (h, o2)
      | _ => False
      end
  | _ => False
  end.
Proof. exact print_ambiguous. Qed.
Print Assumptions C72_ambiguous_refuted.
Example C72_case :
  match new_template ∅ (B "b{{f}}a%--c--%[[x]]1[[]]") with
  | (th, Some t) =>
      match th !! t with
      | Some T => tmpl_string T = B "xcore.XTemplate{{0 a} {0 b} {1 c} {7 f}}" /\
          tmpl_gostring (fun s => B "'" ++ s ++ B "'") (Tmpl [] (Some [Param 7 (B "f")]) None None)
            = B "#xcore.XTemplate{xcore.XTemplateParam{ParamType:7, Data:'f'}}"
      | None => False
      end
  | _ => False
  end /\ tmpl_string empty_tmpl = B "xcore.XTemplate{}".
Proof. vm_compute. split_and!; reflexivity. Qed.

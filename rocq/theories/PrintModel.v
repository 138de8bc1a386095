(** * XTemplate.String and GoString, v2/xtemplate.go:495-518.
    [quote] is the printing of a string with %#v. *)
From Verif Require Import GoBase GoStrings DatasetModel LangModel TemplateModel.
Local Open Scope Z_scope.

(** fmt's %v and %#v of the structure XTemplateParam, v2/xtemplate.go:63-67. *)
Definition param_text (p : param) : bytes := B "{" ++ itoa (p_type p) ++ B " " ++ p_data p ++ B "}".
Definition param_gotext (quote : bytes -> bytes) (p : param) : bytes :=
  B "xcore.XTemplateParam{ParamType:" ++ itoa (p_type p) ++ B ", Data:" ++ quote (p_data p) ++ B "}".
(** v2/xtemplate.go:495-505 [String]. *)
Definition tmpl_string (T : tmpl) : bytes :=
  match t_root T with
  | None => B "xcore.XTemplate{}"
  | Some ps => B "xcore.XTemplate{" ++ join (B " ") (sort_strings (map param_text ps)) ++ B "}"
  end.
(** v2/xtemplate.go:508-518 [GoString]. *)
Definition tmpl_gostring (quote : bytes -> bytes) (T : tmpl) : bytes :=
  match t_root T with
  | None => B "#xcore.XTemplate{}"
  | Some ps => B "#xcore.XTemplate{" ++ join (B " ") (sort_strings (map (param_gotext quote) ps)) ++ B "}"
  end.

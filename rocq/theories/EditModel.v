(** * Templates loaded and extended while other goroutines use them (C118).

    LoadString and AddTemplate (v2/xtemplate.go:129-282) divided into their accesses to the fields of
    templates, as Clone, GetTemplate and Execute are in CopyModel.v.  t.SubTemplates[name] = tmpl is one access
    (the field is followed and the map written), and so is the walk through the entries of a map in Clone.  The
    runtime, which may stop a program that reads and writes a map at the same time, is not modelled. *)
From Verif Require Import GoBase GoStrings Regex DatasetModel LangModel TemplateModel CopyModel.

(** v2/xtemplate.go:276-282 [AddTemplate]. *)
Definition put (t : loc) (name : bytes) (x : loc) : tact unit :=
  TAct (alter (fun T => with_subs (match t_subs T with Some m => Some (<[name := x]> m) | None => None end) T) t)
       (fun th => match th !! t with Some T => match t_subs T with Some _ => TRet tt | None => TFail end | None => TFail end).
Definition t_add (t : loc) (name : bytes) (x : loc) : tact unit :=
  s <~ field t t_subs;
  _ <~ match s with None => assign t (with_subs (Some ∅)) | Some _ => TRet tt end;        (* 277-279 *)
  _ <~ assign x (with_father (Some t));                                                   (* 280 *)
  put t name x.                                                                           (* 281 *)
(** v2/xtemplate.go:235-246. *)
Fixpoint t_add_all (t : loc) (names : list bytes) (x : loc) : tact unit :=
  match names with
  | [] => TRet tt
  | [] :: names' => t_add_all t names' x
  | v :: names' => _ <~ t_add t v x; t_add_all t names' x
  end.
Definition t_register (t : loc) (name : bytes) (x : loc) : tact unit :=
  if bool_decide ("|"%char ∈ name) then t_add_all t (split_on "|"%char name) x else t_add t name x.
(** State of the loop 206-254 without the templates. *)
Record lstate := LState { l_starts : list nat; l_uppers : list loc; l_actual : loc; l_compiled : list param }.
(** v2/xtemplate.go:209-254, one element. *)
Definition t_second_step (i : nat) (s : lstate) : tact (option lstate) :=
  match l_compiled s !! i with
  | None => TRet (Some s)
  | Some x =>
      if bool_decide (p_type x = MStart) then                                             (* 210-213 *)
        a <~ make (Tmpl (p_data x) None None None);
        TRet (Some (LState (i :: l_starts s) (l_actual s :: l_uppers s) a (l_compiled s)))
      else if bool_decide (p_type x = MEnd) then                                          (* 214-253 *)
        match l_starts s, l_uppers s with
        | sp :: starts, up :: uppers =>
            let c := l_compiled s in
            let inner := take (i - S sp) (drop (S sp) c) in
            let subset := filter (fun p => live p = true) inner in
            let c1 := take sp c ++ map unused (take (i - sp) (drop sp c)) ++ unused x :: drop (S i) c in
            _ <~ assign (l_actual s) (with_root (Some subset));                           (* 230 *)
            name <~ field (l_actual s) t_name;
            _ <~ t_register up name (l_actual s);
            TRet (Some (LState starts uppers up c1))
        | _, _ => TRet None
        end
      else TRet (Some s)
  end.
Fixpoint t_second_pass (k : nat) (i : nat) (s : lstate) : tact (lstate * bool) :=
  match k with
  | O => TRet (s, true)
  | S k' => r <~ t_second_step i s; match r with None => TRet (s, false) | Some s' => t_second_pass k' (S i) s' end
  end.
(** v2/xtemplate.go:129-273 [LoadString], [compile]. *)
Definition t_load (t : loc) (data : bytes) : tact bool :=
  let compiled := first_pass data in
  '(s, ok) <~ t_second_pass (length compiled) 0 (LState [] [] t compiled);
  if (ok : bool) then
    match l_starts s with
    | [] => _ <~ assign t (with_root (Some (filter (fun p => live p = true) (l_compiled s)))); TRet true
    | _ => TRet false
    end
  else TRet false.

(** ** What a goroutine does: calls of the functions of a template on templates it holds (by number; a
    number that it does not hold is passed over).  What a call returns is held as well, last. *)
Inductive call :=
| New                                                                      (* NewXTemplate, v2/xtemplate.go:87-89 *)
| Load (i : nat) (data : bytes)
| Add (i : nat) (name : bytes) (j : nat)
| Dup (i : nat) (tord : theap -> gmap bytes loc -> list (bytes * loc))     (* Clone *)
| Find (i : nat) (name : bytes)                                            (* GetTemplate *)
| Run (i : nat) (data : option loc).                                       (* Execute *)
Inductive reply := Loaded (ok : bool) | Found (yes : bool) | Text (b : bytes).
Section Calls.
  Context (F : golib) (ord : heap -> gmap bytes value -> list (bytes * value)) (langs : nat -> option lang).
  Fixpoint t_calls (n : nat) (held : list loc) (h : heap) (cs : list call) : tact (list reply) :=
    match cs with
    | [] => TRet []
    | New :: cs' => t <~ make empty_tmpl; t_calls n (held ++ [t]) h cs'
    | Load i data :: cs' =>
        match held !! i with
        | Some t => ok <~ t_load t data; rs <~ t_calls n held h cs'; TRet (Loaded ok :: rs)
        | None => t_calls n held h cs'
        end
    | Add i name j :: cs' =>
        match held !! i, held !! j with
        | Some t, Some x => _ <~ t_add t name x; t_calls n held h cs'
        | _, _ => t_calls n held h cs'
        end
    | Dup i tord :: cs' =>
        match held !! i with
        | Some t => c <~ t_clone tord n t; t_calls n (held ++ [c]) h cs'
        | None => t_calls n held h cs'
        end
    | Find i name :: cs' =>
        match held !! i with
        | Some t =>
            r <~ t_get n t name;
            rs <~ t_calls n (match r with Some x => held ++ [x] | None => held end) h cs';
            TRet (Found (bool_decide (is_Some r)) :: rs)
        | None => t_calls n held h cs'
        end
    | Run i data :: cs' =>
        match held !! i with
        | Some t => '(h1, out) <~ t_execute F ord langs n h t data; rs <~ t_calls n held h1 cs'; TRet (Text out :: rs)
        | None => t_calls n held h cs'
        end
    end.
End Calls.

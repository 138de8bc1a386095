(** * XLanguage (v2/xlanguage.go) used by several goroutines, at the granularity of its
    critical sections (what happens inside one section is atomic by C36 and C65).

    LoadString takes the lock once per line (lines 170-172), LoadXMLString writes the name and
    the tag without the lock and then all entries in one section (lines 115-122), every other
    method is one section.  GetEntries answers the table: the copying loop runs under the lock
    (C39 for its result).  The methods on the name and the tag alone, and the printing
    methods, are left out. *)
From Verif Require Import GoBase GoStrings LangModel.

Inductive lcall :=
| KSet (k v : bytes) | KGet (k : bytes) | KSetStatus (k v : bytes) | KGetStatus (k : bytes) | KDel (k : bytes)
| KGetEntries | KLoadString (data : bytes) | KLoadXML (data : bytes).

(** Steps of a call before its last one. *)
Inductive atom :=
| AtLine (line : bytes)      (* v2/xlanguage.go:151-173, one iteration *)
| AtName (n : bytes)         (* v2/xlanguage.go:115 *)
| AtTag (t : bytes).         (* v2/xlanguage.go:116 *)

Inductive lthread := LIdle | LBusy (c : lcall) (rest : list atom) | LDone (c : lcall) (r : lres).
Record lconf := LConf { lc_lang : lang; lc_thr : nat -> lthread }.
Inductive lact := LCall (t : nat) (c : lcall) | LGo (t : nat) | LReturn (t : nat).
Inductive levent := ECall (t : nat) (c : lcall) | ETau | ERet (t : nat) (c : lcall) (r : lres).
Definition lupd (f : nat -> lthread) (t : nat) (x : lthread) : nat -> lthread := fun t' => if decide (t' = t) then x else f t'.

Section LangConc.
  Context (parse_tag : bytes -> bytes) (decode : bytes -> option xdoc).
  (** v2/xlanguage.go:149-150 (the scanner reads the argument only), 107-116. *)
  Definition atoms (c : lcall) : list atom :=
    match c with
    | KLoadString data => map AtLine (scan_lines data).1
    | KLoadXML data => match decode data with Some d => [AtName (x_name d); AtTag (parse_tag (x_lang d))] | None => [] end
    | _ => []
    end.
  Definition pass (l : lang) (a : atom) : lang :=
    match a with
    | AtLine line => load_line l line
    | AtName n => Lang n (l_tag l) (l_entries l) (l_status l)
    | AtTag t => Lang (l_name l) t (l_entries l) (l_status l)
    end.
  (** The last step: v2/xlanguage.go:201-253 for the one-section methods, 174-177, 110-112, 117-123. *)
  Definition finish (l : lang) (c : lcall) : lang * lres :=
    match c with
    | KSet k v => (lset l k v, LUnit)
    | KGet k => (l, LText (lget l k))
    | KSetStatus k v => (lset_status l k v, LUnit)
    | KGetStatus k => (l, LText (lget_status l k))
    | KDel k => (ldel l k, LUnit)
    | KGetEntries => (l, LTable (l_entries l))
    | KLoadString data => (l, LErr (scan_lines data).2)
    | KLoadXML data => match decode data with
                       | Some d => (fold_left add_entry (x_entries d) l, LErr true)
                       | None => (l, LErr false)
                       end
    end.
  Definition lcstep (g : lconf) (a : lact) : option (lconf * levent) :=
    match a with
    | LCall t c =>
        match lc_thr g t with
        | LIdle => Some (LConf (lc_lang g) (lupd (lc_thr g) t (LBusy c (atoms c))), ECall t c)
        | _ => None
        end
    | LGo t =>
        match lc_thr g t with
        | LBusy c (x :: rest) => Some (LConf (pass (lc_lang g) x) (lupd (lc_thr g) t (LBusy c rest)), ETau)
        | LBusy c [] => let '(l, r) := finish (lc_lang g) c in Some (LConf l (lupd (lc_thr g) t (LDone c r)), ETau)
        | _ => None
        end
    | LReturn t =>
        match lc_thr g t with
        | LDone c r => Some (LConf (lc_lang g) (lupd (lc_thr g) t LIdle), ERet t c r)
        | _ => None
        end
    end.
  Fixpoint lcexec (g : lconf) (acts : list lact) : option (lconf * list levent) :=
    match acts with
    | [] => Some (g, [])
    | a :: acts' =>
        match lcstep g a with
        | None => None
        | Some (g1, e) => match lcexec g1 acts' with None => None | Some (g2, h) => Some (g2, e :: h) end
        end
    end.
  Definition linit (l : lang) : lconf := LConf l (fun _ => LIdle).
End LangConc.

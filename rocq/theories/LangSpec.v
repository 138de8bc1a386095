(** * What the documentation of XLanguage promises, without reference to the model. *)
From Verif Require Import GoBase GoStrings GoStringsProofs LangModel.

(** ** Histories: the last value written on a key *)
Definition sets_entry (k : bytes) (o : lop) : Prop := match o with LSet k' _ | LDel k' => k' = k | _ => False end.
Definition sets_status (k : bytes) (o : lop) : Prop := match o with LSetStatus k' _ | LDel k' => k' = k | _ => False end.
(** The operations of property C39. *)
Definition table_op (o : lop) : Prop :=
  match o with LLoadString _ | LLoadXML _ => False | _ => True end.

(** [v] is the last value written on [k] in the history and was not deleted since. *)
Definition last_entry (k v : bytes) (h : list lop) : Prop :=
  exists h1 h2, h = h1 ++ LSet k v :: h2 /\ Forall (fun o => ~ sets_entry k o) h2.
Definition no_entry (k : bytes) (h : list lop) : Prop :=
  Forall (fun o => ~ sets_entry k o) h \/
  exists h1 h2, h = h1 ++ LDel k :: h2 /\ Forall (fun o => ~ sets_entry k o) h2.
Definition last_status (k v : bytes) (h : list lop) : Prop :=
  exists h1 h2, h = h1 ++ LSetStatus k v :: h2 /\ Forall (fun o => ~ sets_status k o) h2.
Definition no_status (k : bytes) (h : list lop) : Prop :=
  Forall (fun o => ~ sets_status k o) h \/
  exists h1 h2, h = h1 ++ LDel k :: h2 /\ Forall (fun o => ~ sets_status k o) h2.

(** The last name and the last tag given; only LoadXMLString reads a name from elsewhere. *)
Definition loads_xml (o : lop) : Prop := match o with LLoadXML _ => True | _ => False end.
Definition names (o : lop) : Prop := match o with LSetName _ => True | _ => False end.
Definition tags (o : lop) : Prop := match o with LSetLanguage _ => True | _ => False end.
Definition last_name (n : bytes) (h : list lop) : Prop :=
  exists h1 h2, h = h1 ++ LSetName n :: h2 /\ Forall (fun o => ~ names o) h2.
Definition last_tag (t : bytes) (h : list lop) : Prop :=
  exists h1 h2, h = h1 ++ LSetLanguage t :: h2 /\ Forall (fun o => ~ tags o) h2.

(** ** The flat format *)
(** A line without its end mark: one carriage return at the end belongs to the mark. *)
Definition chomp (raw line : bytes) : Prop :=
  raw = line ++ [cr] \/ (raw = line /\ forall r, raw <> r ++ [cr]).
(** The raw lines of a text: each ended by a line feed, the last one possibly not. *)
Inductive raw_lines : bytes -> list bytes -> Prop :=
| rl_end : raw_lines [] []
| rl_last l : l <> [] -> lf ∉ l -> raw_lines l [l]
| rl_line l rest ls : lf ∉ l -> raw_lines rest ls -> raw_lines (l ++ lf :: rest) (l :: ls).

(** White space of Unicode, by code points, and their UTF-8 encoding. *)
Definition white (n : N) : Prop :=
  (9 <= n <= 13 \/ n = 32 \/ n = 133 \/ n = 160 \/ n = 5760 \/ 8192 <= n <= 8202 \/
   n = 8232 \/ n = 8233 \/ n = 8239 \/ n = 8287 \/ n = 12288)%N.
Definition encoding (n : N) : bytes :=
  map ascii_of_N
    (if n <? 128 then [n]
     else if n <? 2048 then [192 + n / 64; 128 + n mod 64]
     else [224 + n / 4096; 128 + n / 64 mod 64; 128 + n mod 64])%N.

(** The line says key = value. *)
Definition entry_line (line key value : bytes) : Prop :=
  (forall r, line <> byte 35 :: r) /\ (forall r, line <> byte 59 :: r) /\
  exists a b, line = a ++ byte 61 :: b /\ byte 61 ∉ a /\ trimmed a key /\ key <> [] /\ trimmed b value.

(** The effect of a list of lines on a table. *)
Inductive overlay : table -> list bytes -> table -> Prop :=
| ov_nil m : overlay m [] m
| ov_entry m l k v ls m' : entry_line l k v -> overlay (<[k := v]> m) ls m' -> overlay m (l :: ls) m'
| ov_skip m l ls m' : (forall k v, ~ entry_line l k v) -> overlay m ls m' -> overlay m (l :: ls) m'.

Definition short (raw : bytes) : Prop := (Z.of_nat (length raw) < 65536)%Z.

(** Keys and values that survive a trip through the flat format. *)
Definition flat_ok (kv : bytes * bytes) : Prop :=
  kv.1 <> [] /\ byte 61 ∉ kv.1 /\ lf ∉ kv.1 /\ lf ∉ kv.2 /\
  (forall r, kv.1 <> byte 35 :: r) /\ (forall r, kv.1 <> byte 59 :: r) /\
  ~ starts_blank kv.1 /\ ~ ends_blank kv.1 /\ ~ starts_blank kv.2 /\ ~ ends_blank kv.2 /\
  short (kv.1 ++ byte 61 :: kv.2).
Definition flat_text (order : list (bytes * bytes)) : bytes :=
  concat (map (fun kv => kv.1 ++ byte 61 :: kv.2 ++ [lf]) order).

(** * The thread safe objects of xcore as instances of LockModel.v. *)
From Verif Require Import GoBase GoStrings LangModel LockModel.

(** ** XLanguage (v2/xlanguage.go); the memory is the pair of maps with name and language.
    The methods below are those made of one critical section; the unlock is deferred.
    LoadString (one section per line) and LoadXMLString, SetName, SetLanguage (which
    write outside of the lock) are not among them. *)
Section LangInst.
  Context (quote : bytes -> bytes).
  Notation lmethod := (method lang lres).
  Inductive slop :=
  | SSet (k v : bytes) | SGet (k : bytes) | SSetStatus (k v : bytes) | SGetStatus (k : bytes) | SDel (k : bytes)
  | SGetEntries (order : list (bytes * bytes)) | SGetXML (order : list (bytes * bytes))
  | SString (order : list (bytes * bytes)) | SGoString (order : list (bytes * bytes)).
  (** RLock, deferred RUnlock (for instance v2/xlanguage.go:209-210). *)
  Definition reading (f : lang -> lres) : lmethod := Method false true [fun l _ => Some (l, f l)] LUnit.
  Definition lang_method (o : slop) : lmethod :=
    match o with
    | SSet k v => Method true true [fun l r => Some (lset l k v, r)] LUnit                    (* lines 201-205 *)
    | SGet k => reading (fun l => LText (lget l k))                                           (* lines 208-216 *)
    | SSetStatus k v => Method true true [fun l r => Some (lset_status l k v, r)] LUnit       (* lines 219-223 *)
    | SGetStatus k => reading (fun l => LText (lget_status l k))                              (* lines 226-234 *)
    | SDel k => Method true true                                                              (* lines 237-242 *)
        [fun l r => Some (Lang (l_name l) (l_tag l) (delete k (l_entries l)) (l_status l), r);
         fun l r => Some (Lang (l_name l) (l_tag l) (l_entries l) (delete k (l_status l)), r)] LUnit
    | SGetEntries order => reading (fun _ => LTable (lget_entries order))                     (* lines 245-253 *)
    | SGetXML order => reading (fun l => LText (get_xml l order))                             (* lines 256-266 *)
    | SString order => reading (fun _ => LText (lstring order))                               (* lines 269-278 *)
    | SGoString order => reading (fun _ => LText (lgostring quote order))                     (* lines 281-290 *)
    end.
  (** The same calls on the sequential model of LangModel.v. *)
  Definition lop_of (o : slop) : lop :=
    match o with
    | SSet k v => LSet k v | SGet k => LGet k | SSetStatus k v => LSetStatus k v | SGetStatus k => LGetStatus k
    | SDel k => LDel k | SGetEntries order => LGetEntries order | SGetXML order => LGetXML order
    | SString order => LString order | SGoString order => LGoString order
    end.
End LangInst.

(** ** XDatasetTS (v2/xdatasetts.go) around any implementation of XDatasetDef that is only
    used through the wrapper: [inner_set], [inner_del], [inner_clone] and [inner_read] are
    its methods ([None]: it panics; [Q] are the read methods with their arguments).  The
    memory is the field [data]; [None] is a nil interface, on which every call panics. *)
Section TsInst.
  Context {D V Q R : Type}.
  Context (inner_set : D -> bytes -> V -> option D) (inner_del : D -> bytes -> option D)
          (inner_clone : D -> option R) (inner_read : D -> Q -> option R).
  Inductive tsop := TSet (k : bytes) (v : V) | TDel (k : bytes) | TClone | TRead (q : Q).
  Inductive tsres := TUnit | TGot (r : R).
  Definition ts_method (o : tsop) : method (option D) tsres :=
    match o with
    | TSet k v => Method true false                                                           (* lines 38-42 *)
        [fun s r => match s with None => None | Some d => match inner_set d k v with None => None | Some d' => Some (Some d', r) end end] TUnit
    | TDel k => Method true false                                                             (* lines 140-144 *)
        [fun s r => match s with None => None | Some d => match inner_del d k with None => None | Some d' => Some (Some d', r) end end] TUnit
    | TClone => Method false false                                                            (* lines 147-153 *)
        [fun s _ => match s with None => None | Some d => match inner_clone d with None => None | Some r => Some (s, TGot r) end end] TUnit
    | TRead q => Method false true                                                            (* lines 24-35, 45-137 *)
        [fun s _ => match s with None => None | Some d => match inner_read d q with None => None | Some r => Some (s, TGot r) end end] TUnit
    end.
End TsInst.

(** ** XDatasetCollectionTS (v2/xdatasetcollectionts.go); the memory is the slice [data],
    [D] the elements, [show] the text that String appends for element [i] (line 21). *)
Section CollInst.
  Context {D : Type} (show : nat -> D -> bytes).
  Inductive cop := CPush (d : D) | CUnshift (d : D) | CShift | CPop | CCount | CGet (i : Z) | CString
                 | CLen | CElem (i : nat).     (* the two kinds of sections of GetData, lines 84-86 and 88-90 *)
  Inductive cres := RUnit | RElem (d : D) | RCount (n : nat) | RGet (o : option D) | RText (t : bytes).
  Definition coll_method (o : cop) : method (list D) cres :=
    match o with
    | CUnshift d => Method true false [fun s r => Some (d :: s, r)] RUnit                     (* lines 34-38 *)
    | CShift => Method true false                                                             (* lines 41-47 *)
        [fun s _ => match s with [] => None | d :: _ => Some (s, RElem d) end; fun s r => Some (tail s, r)] RUnit
    | CPush d => Method true false [fun s r => Some (s ++ [d], r)] RUnit                      (* lines 50-54 *)
    | CPop => Method true false                                                               (* lines 57-63 *)
        [fun s _ => match list_lookup (length s - 1) s with None => None | Some d => Some (s, RElem d) end;
         fun s r => Some (take (length s - 1) s, r)] RUnit
    | CCount => Method false true [fun s _ => Some (s, RCount (length s))] RUnit              (* lines 66-70 *)
    | CGet i => Method false true                                                             (* lines 73-80 *)
        [fun s _ => if bool_decide (i < 0 \/ Z.of_nat (length s) <= i)%Z then Some (s, RGet None)
                    else match s !! Z.to_nat i with Some d => Some (s, RGet (Some d)) | None => None end] RUnit
    | CString => Method false false                                                           (* lines 17-26 *)
        [fun s _ => Some (s, RText (B "XDatasetCollectionTS[" ++ concat (imap show s) ++ B "]"))] RUnit
    | CLen => Method false false [fun s _ => Some (s, RCount (length s))] RUnit
    | CElem i => Method false false [fun s _ => match s !! i with Some d => Some (s, RElem d) | None => None end] RUnit
    end.

  (** GetData as a conversation of one thread with the object (lines 83-97): the calls it
      makes, the answers it gets, what it finally returns; [get] is Get(key) of an
      element ([None]: not found).  [loop n] is the loop entered with [i = n - 1]. *)
  Section GetData.
    Context {V : Type} (get : D -> option V).
    Inductive loop : nat -> list (cop * cres) -> option V -> Prop :=
    | gd_none : loop 0 [] None
    | gd_found i d v : get d = Some v -> loop (S i) [(CElem i, RElem d)] (Some v)
    | gd_next i d talk r : get d = None -> loop i talk r -> loop (S i) ((CElem i, RElem d) :: talk) r.
    Inductive getdata : list (cop * cres) -> option V -> Prop :=
    | gd_start n talk r : loop n talk r -> getdata ((CLen, RCount n) :: talk) r.
  End GetData.

  (** The double ended queue. *)
  Definition deque (s : list D) (o : cop) : list D * option cres :=
    match o with
    | CPush d => (s ++ [d], Some RUnit)
    | CUnshift d => (d :: s, Some RUnit)
    | CShift => match s with [] => (s, None) | d :: s' => (s', Some (RElem d)) end
    | CPop => match reverse s with [] => (s, None) | d :: r => (reverse r, Some (RElem d)) end
    | CCount | CLen => (s, Some (RCount (length s)))
    | CGet i => (s, Some (RGet (if bool_decide (0 <= i)%Z then s !! Z.to_nat i else None)))
    | CString => (s, Some (RText (B "XDatasetCollectionTS[" ++ concat (imap show s) ++ B "]")))
    | CElem i => (s, match s !! i with Some d => Some (RElem d) | None => None end)
    end.
End CollInst.
Arguments cop : clear implicits.
Arguments cres : clear implicits.

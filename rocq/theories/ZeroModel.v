(** * Languages and caches that were not made by their New functions.

    XLanguage and XCache are exported structures: &XLanguage{} and &XCache{} hold nil maps.  Reading a nil map and deleting from it
    is allowed in Go, storing into it is a run time panic.  Panics are recovered by the caller; [zl_held]: the lock was not released. *)
From Verif Require Import GoBase GoStrings LangModel CacheModel.

(** [None] is the nil map. *)
Definition reads {V} (m : option (gmap bytes V)) : gmap bytes V := default ∅ m.
Definition stores {V} (m : option (gmap bytes V)) (k : bytes) (v : V) : option (option (gmap bytes V)) :=
  match m with None => None | Some x => Some (Some (<[k := v]> x)) end.

Record zlang := ZLang { zl_name : bytes; zl_tag : bytes; zl_entries : option table; zl_status : option table; zl_held : bool }.
(** [ZBlock]: the call waits for ever. *)
Inductive zresult := ZDone (r : lres) | ZPanic | ZBlock.
(** &XLanguage{}; [tag]: the printed form of the zero tag. *)
Definition zero_lang (tag : bytes) : zlang := ZLang [] tag None None false.
Definition made_lang (l : lang) : zlang := ZLang (l_name l) (l_tag l) (Some (l_entries l)) (Some (l_status l)) false.
(** The language read: what the reading methods see. *)
Definition seen (l : zlang) : lang := Lang (zl_name l) (zl_tag l) (reads (zl_entries l)) (reads (zl_status l)).

Section Zero.
  Context (parse_tag : bytes -> bytes) (decode : bytes -> option xdoc) (quote : bytes -> bytes).

  (** v2/xlanguage.go:150-167: the entry of a line. *)
  Definition line_entry (line : bytes) : option (bytes * bytes) :=
    match line with
    | [] => None
    | c :: _ => match cut_at (byte 61) line with
                | None => None
                | Some (before, after) => if bool_decide (c = byte 35 \/ c = byte 59) then None
                                          else match trim_space before with [] => None | key => Some (key, trim_space after) end
                end
    end.
  (** v2/xlanguage.go:148-178: Lock and Unlock around each store, not deferred (lines 170-172). *)
  Fixpoint zload_lines (l : zlang) (lines : list bytes) : zlang * option zresult :=
    match lines with
    | [] => (l, None)
    | x :: lines' =>
        match line_entry x with
        | None => zload_lines l lines'
        | Some (k, v) =>
            if zl_held l then (l, Some ZBlock)
            else match stores (zl_entries l) k v with
                 | None => (ZLang (zl_name l) (zl_tag l) (zl_entries l) (zl_status l) true, Some ZPanic)
                 | Some m => zload_lines (ZLang (zl_name l) (zl_tag l) m (zl_status l) false) lines'
                 end
        end
    end.
  (** v2/xlanguage.go:119-122; the Unlock is deferred (line 118). *)
  Fixpoint zadd_entries (l : zlang) (es : list (bytes * bytes * bytes)) : zlang * bool :=
    match es with
    | [] => (l, true)
    | (id, text, status) :: es' =>
        match stores (zl_entries l) id text with
        | None => (l, false)
        | Some m => let l1 := ZLang (zl_name l) (zl_tag l) m (zl_status l) (zl_held l) in
                    match stores (zl_status l) id status with
                    | None => (l1, false)
                    | Some m2 => zadd_entries (ZLang (zl_name l) (zl_tag l) m m2 (zl_held l)) es'
                    end
        end
    end.
  (** The methods of v2/xlanguage.go; lines as in LangModel.v. *)
  Definition zstep (l : zlang) (o : lop) : zlang * zresult :=
    match o with
    | LSetName n => (ZLang n (zl_tag l) (zl_entries l) (zl_status l) (zl_held l), ZDone LUnit)        (* no lock *)
    | LSetLanguage t => (ZLang (zl_name l) t (zl_entries l) (zl_status l) (zl_held l), ZDone LUnit)
    | LGetName => (l, ZDone (LText (zl_name l)))
    | LGetLanguage => (l, ZDone (LText (zl_tag l)))
    | LLoadString data => let '(lines, ok) := scan_lines data in
                          match zload_lines l lines with
                          | (l1, None) => (l1, ZDone (LErr ok))
                          | (l1, Some r) => (l1, r)
                          end
    | LLoadXML data => match decode data with
                       | None => (l, ZDone (LErr false))
                       | Some d => let l1 := ZLang (x_name d) (parse_tag (x_lang d)) (zl_entries l) (zl_status l) (zl_held l) in
                                   if zl_held l then (l1, ZBlock)                                      (* lines 115-117 *)
                                   else let '(l2, ok) := zadd_entries l1 (x_entries d) in (l2, if ok then ZDone (LErr true) else ZPanic)
                       end
    | LSet k v => if zl_held l then (l, ZBlock) else
                  match stores (zl_entries l) k v with
                  | None => (l, ZPanic)
                  | Some m => (ZLang (zl_name l) (zl_tag l) m (zl_status l) false, ZDone LUnit)
                  end
    | LSetStatus k v => if zl_held l then (l, ZBlock) else
                        match stores (zl_status l) k v with
                        | None => (l, ZPanic)
                        | Some m => (ZLang (zl_name l) (zl_tag l) (zl_entries l) m false, ZDone LUnit)
                        end
    | LDel k => if zl_held l then (l, ZBlock) else
                (ZLang (zl_name l) (zl_tag l) (delete k <$> zl_entries l) (delete k <$> zl_status l) false, ZDone LUnit)
    | LGet k => (l, if zl_held l then ZBlock else ZDone (LText (lget (seen l) k)))
    | LGetStatus k => (l, if zl_held l then ZBlock else ZDone (LText (lget_status (seen l) k)))
    | LGetEntries order => (l, if zl_held l then ZBlock else ZDone (LTable (lget_entries order)))
    | LGetXML order => (l, if zl_held l then ZBlock else ZDone (LText (get_xml (seen l) order)))
    | LString order => (l, if zl_held l then ZBlock else ZDone (LText (lstring order)))
    | LGoString order => (l, if zl_held l then ZBlock else ZDone (LText (lgostring quote order)))
    end.
  (** Calls one after the other, each from a goroutine of its own: panics are recovered, a blocked call stays behind. *)
  Fixpoint zrun (l : zlang) (ops : list lop) : zlang * list zresult :=
    match ops with
    | [] => (l, [])
    | o :: ops' => let '(l1, r) := zstep l o in let '(l2, rs) := zrun l1 ops' in (l2, r :: rs)
    end.
End Zero.

(** ** The cache: only Set stores into the map (v2/xcache.go:69, before anything else is changed; the Unlock is deferred), Flush makes
    a new one (line 272).  [zc_items] is [None] for the nil map of &XCache{}. *)
Section ZeroCache.
  Context {D : Type} (dnil : D).
  Record zcache := ZCache { zc_max : Z; zc_expire : Z; zc_items : option (gmap bytes (entry D)); zc_pile : list bytes }.
  Definition zero_cache (maxitems expire : Z) : zcache := ZCache maxitems expire None [].
  (** What the methods see. *)
  Definition as_cache (c : zcache) : cache D := Cache (zc_max c) (zc_expire c) (reads (zc_items c)) (zc_pile c).
  (** After a method that stores nothing: the map stays nil if it was. *)
  Definition back (c : zcache) (c' : cache D) : zcache :=
    ZCache (c_max c') (c_expire c') (match zc_items c with None => None | Some _ => Some (c_items c') end) (c_pile c').
  Definition zcstep (c : zcache) (o : op D) : zcache * result D :=
    let '(c', r) := step dnil (as_cache c) o in
    match o, zc_items c with
    | OSet _ _ _ _ _, None => (c, RPanic)
    | OFlush, _ => (ZCache (c_max c') (c_expire c') (Some (c_items c')) (c_pile c'), r)
    | _, _ => (back c c', r)
    end.
  Fixpoint zcrun (c : zcache) (ops : list (op D)) : zcache * list (result D) :=
    match ops with
    | [] => (c, [])
    | o :: ops' => let '(c1, r) := zcstep c o in let '(c2, rs) := zcrun c1 ops' in (c2, r :: rs)
    end.
End ZeroCache.
Arguments zcache D : clear implicits.

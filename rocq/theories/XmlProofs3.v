(** * Reading the document that GetXML writes. *)
From Verif Require Import GoBase GoStrings GoStringsProofs LangModel XmlModel XmlSpec XmlProofs XmlProofs2.
Local Open Scope Z_scope.

Lemma attr_id n acc s : xattrs (S (S n)) acc (B " id=""" ++ s) = let? (v, r) := text (Some dq) false s in xattrs (S n) (acc ++ [(B "id", v)]) r.
Proof.
  transitivity (let? (v, r) := text (Some dq) false s in match r with [] => XErr | _ => xattrs (S n) (acc ++ [(B "id", v)]) r end); [reflexivity|].
  by destruct (text (Some dq) false s) as [[v [|y r]]| |].
Qed.
Lemma attr_lang n acc s : xattrs (S (S n)) acc (B " lang=""" ++ s) = let? (v, r) := text (Some dq) false s in xattrs (S n) (acc ++ [(B "lang", v)]) r.
Proof.
  transitivity (let? (v, r) := text (Some dq) false s in match r with [] => XErr | _ => xattrs (S n) (acc ++ [(B "lang", v)]) r end); [reflexivity|].
  by destruct (text (Some dq) false s) as [[v [|y r]]| |].
Qed.
Lemma attr_status n acc s : xattrs (S (S n)) acc (B " status=""" ++ s) = let? (v, r) := text (Some dq) false s in xattrs (S n) (acc ++ [(B "status", v)]) r.
Proof.
  transitivity (let? (v, r) := text (Some dq) false s in match r with [] => XErr | _ => xattrs (S n) (acc ++ [(B "status", v)]) r end); [reflexivity|].
  by destruct (text (Some dq) false s) as [[v [|y r]]| |].
Qed.
Lemma attr_end n acc s : xattrs (S n) acc (B ">" ++ s) = XOk (acc, false, s).
Proof. reflexivity. Qed.

(** The text of one entry. *)
Definition ent (k st v : bytes) : bytes :=
  B "<entry id=""" ++ k ++ B """ status=""" ++ st ++ B """><![CDATA[" ++ v ++ B "]]></entry>".
Lemma xml_entry_ent l kv : xml_entry l kv = B "  " ++ ent kv.1 (lget_status l kv.1) kv.2.
Proof. reflexivity. Qed.

Lemma start_entry s : raw_token (B "<entry id=""" ++ s) =
  let? (al, e, r) := xattrs (S (length (B " id=""" ++ s))) [] (B " id=""" ++ s) in XOk (Some (TStart (B "entry") al e, r)).
Proof. reflexivity. Qed.
Lemma read_start k st r : attr_text k -> attr_text st ->
  raw_token (B "<entry id=""" ++ k ++ B """ status=""" ++ st ++ B """>" ++ r) =
  XOk (Some (TStart (B "entry") [(B "id", k); (B "status", st)] false, r)).
Proof.
  intros Hk Hs. rewrite start_entry. change (length (B " id=""" ++ ?x)) with (S (S (S (S (S (length x)))))). rewrite attr_id.
  change (k ++ B """ status=""" ++ st ++ B """>" ++ r) with (k ++ dq :: (B " status=""" ++ st ++ B """>" ++ r)).
  rewrite text_attr by done. cbn [xbind].
  rewrite attr_status.
  change (st ++ B """>" ++ r) with (st ++ dq :: (B ">" ++ r)). rewrite text_attr by done. cbn [xbind]. rewrite attr_end. done.
Qed.
Lemma read_cdata s : raw_token (B "<![CDATA[" ++ s) = let? (v, r) := text None true s in XOk (Some (TChars v, r)).
Proof. reflexivity. Qed.
Lemma read_end s : raw_token (B "</entry>" ++ s) = XOk (Some (TEnd (B "entry"), s)).
Proof. reflexivity. Qed.
Lemma read_gap s : raw_token (lf :: B "  <" ++ s) = XOk (Some (TChars (lf :: B "  "), B "<" ++ s)).
Proof. reflexivity. Qed.

Lemma xloop_S n st s : xloop (S n) st s =
  let? r := raw_token s in
  match r with
  | None => XErr
  | Some (t, s') => let? x := take_token st t in match x with inl d => XOk d | inr st' => xloop n st' s' end
  end.
Proof. reflexivity. Qed.

Definition add_doc (d : xdoc) (es : list (bytes * bytes * bytes)) : xdoc := XDoc (x_name d) (x_lang d) (x_entries d ++ es).
Definition read_as (l : lang) (kv : bytes * bytes) : bytes * bytes * bytes := (kv.1, unix kv.2, lget_status l kv.1).

(** The first three tokens of an entry with good attributes: up to its value. *)
Lemma read_to_value n o d k st r : attr_text k -> attr_text st ->
  xloop (S (S n)) (XState [o] d None) (lf :: B "  <entry id=""" ++ k ++ B """ status=""" ++ st ++ B """>" ++ r) =
  xloop n (XState [B "entry"; o] d (Some (k, [], st))) r.
Proof.
  intros Hk Hs. rewrite xloop_S. change (lf :: B "  <entry id=""" ++ ?x) with (lf :: B "  <" ++ (B "entry id=""" ++ x)).
  rewrite read_gap. cbn [xbind take_token char_data xs_open xs_entry]. rewrite xloop_S.
  change (B "<" ++ (B "entry id=""" ++ ?x)) with (B "<entry id=""" ++ x). rewrite read_start by done. reflexivity.
Qed.
Lemma read_entry n o d l kv rest : entry_text l kv ->
  xloop (4 + n) (XState [o] d None) (lf :: xml_entry l kv ++ rest) = xloop n (XState [o] (add_doc d [read_as l kv]) None) rest.
Proof.
  intros (Hk & Hs & Hx & Hv). destruct kv as [k v]. cbn [fst snd] in *.
  change (4 + n)%nat with (S (S (S (S n)))).
  replace (lf :: xml_entry l (k, v) ++ rest) with
    (lf :: B "  <entry id=""" ++ k ++ B """ status=""" ++ lget_status l k ++ B """>" ++ (B "<![CDATA[" ++ v ++ B "]]>" ++ B "</entry>" ++ rest)).
  2:{ unfold xml_entry. cbn [fst snd]. rewrite <- !app_assoc. reflexivity. }
  rewrite read_to_value by done. rewrite xloop_S, read_cdata, text_cdata by done.
  rewrite (proj2 (legal_iff v) Hx). cbn [xbind take_token char_data xs_open xs_entry xs_doc app]. rewrite xloop_S, read_end. reflexivity.
Qed.
(** An entry without the space before it. *)
Lemma read_ent n o d k st v rest : attr_text k -> attr_text st -> value_text v ->
  xloop (3 + n) (XState [o] d None) (ent k st v ++ rest) = xloop n (XState [o] (add_doc d [(k, unix v, st)]) None) rest.
Proof.
  intros Hk Hs [Hx Hv]. change (3 + n)%nat with (S (S (S n))).
  replace (ent k st v ++ rest) with
    (B "<entry id=""" ++ k ++ B """ status=""" ++ st ++ B """>" ++ (B "<![CDATA[" ++ v ++ B "]]>" ++ B "</entry>" ++ rest)).
  2:{ unfold ent. rewrite <- !app_assoc. reflexivity. }
  rewrite xloop_S, read_start by done. cbn [xbind take_token]. rewrite xloop_S, read_cdata, text_cdata by done.
  rewrite (proj2 (legal_iff v) Hx). cbn [xbind take_token]. rewrite xloop_S, read_end. reflexivity.
Qed.
Lemma read_entries l o kvs : forall n d rest, Forall (entry_text l) kvs ->
  xloop (4 * length kvs + n) (XState [o] d None) (concat (map (fun kv => lf :: xml_entry l kv) kvs) ++ rest) =
  xloop n (XState [o] (add_doc d (map (read_as l) kvs)) None) rest.
Proof.
  induction kvs as [|kv kvs IH]; intros n d rest H.
  - simpl. unfold add_doc. rewrite app_nil_r. by destruct d.
  - apply Forall_cons in H as [H1 H2]. cbn [map concat length].
    replace (4 * S (length kvs) + n)%nat with (4 + (4 * length kvs + n))%nat by lia.
    rewrite <- app_assoc. change ((lf :: xml_entry l kv) ++ ?x) with (lf :: xml_entry l kv ++ x).
    rewrite read_entry by done. rewrite IH by done. f_equal. unfold add_doc. cbn [x_name x_lang x_entries].
    by rewrite <- app_assoc.
Qed.

(** ** The head of the document *)
Definition head (l : lang) (s : bytes) : bytes :=
  B "<?xml version=""1.0"" encoding=""UTF-8"" ?>" ++ [lf] ++ B "<language id=""" ++ l_name l ++ B """ lang=""" ++ l_tag l ++ B """>" ++ s.
Lemma read_proc s : raw_token (B "<?xml version=""1.0"" encoding=""UTF-8"" ?>" ++ s) = XOk (Some (TProc, s)).
Proof. reflexivity. Qed.
Lemma read_nl s : raw_token ([lf] ++ B "<" ++ s) = XOk (Some (TChars [lf], B "<" ++ s)).
Proof. reflexivity. Qed.
Lemma start_language s : raw_token (B "<language id=""" ++ s) =
  let? (al, e, r) := xattrs (S (length (B " id=""" ++ s))) [] (B " id=""" ++ s) in XOk (Some (TStart (B "language") al e, r)).
Proof. reflexivity. Qed.
Lemma read_head n l s : header_text l ->
  xloop (3 + n) (XState [] (XDoc [] [] []) None) (head l s) = xloop n (XState [B "language"] (XDoc (l_name l) (l_tag l) []) None) s.
Proof.
  intros [Hn Ht]. change (3 + n)%nat with (S (S (S n))). unfold head. rewrite xloop_S, read_proc.
  cbn [xbind take_token]. rewrite xloop_S.
  change ([lf] ++ B "<language id=""" ++ ?x) with ([lf] ++ B "<" ++ (B "language id=""" ++ x)). rewrite read_nl.
  cbn [xbind take_token char_data xs_open xs_entry]. rewrite xloop_S.
  change (B "<" ++ (B "language id=""" ++ ?x)) with (B "<language id=""" ++ x). rewrite start_language. change (length (B " id=""" ++ ?x)) with (S (S (S (S (S (length x)))))). rewrite attr_id.
  change (l_name l ++ B """ lang=""" ++ l_tag l ++ B """>" ++ s) with (l_name l ++ dq :: (B " lang=""" ++ l_tag l ++ B """>" ++ s)).
  rewrite text_attr by done. cbn [xbind].
  rewrite attr_lang.
  change (l_tag l ++ B """>" ++ s) with (l_tag l ++ dq :: (B ">" ++ s)). rewrite text_attr by done. cbn [xbind]. rewrite attr_end. reflexivity.
Qed.

(** The body: each entry with a line feed before it. *)
Definition tail : bytes := lf :: B "</language>".
Lemma join_body (es : list bytes) : es <> [] -> [lf] ++ join [lf] es = concat (map (fun e => lf :: e) es).
Proof.
  induction es as [|e es IH]; [done|]. intros _. destruct es as [|e' es]; [simpl; by rewrite app_nil_r|].
  transitivity ([lf] ++ e ++ ([lf] ++ join [lf] (e' :: es))); [done|]. rewrite IH by done. done.
Qed.
(** GetXML writes the entries of some rearrangement of the iteration order. *)
Lemma get_xml_shape l order : exists sorted, sorted ≡ₚ order /\
  get_xml l order = head l (match sorted with [] => [lf] | _ => concat (map (fun kv => lf :: xml_entry l kv) sorted) end ++ tail).
Proof.
  assert (P : sort_strings (map (xml_entry l) order) ≡ₚ map (xml_entry l) order) by apply merge_sort_Permutation.
  apply Permutation_map_inv in P as (sorted & E & P). exists sorted. split; [by symmetry|].
  unfold get_xml. rewrite E.
  assert (K : [lf] ++ join [lf] (map (xml_entry l) sorted) ++ tail =
              match sorted with [] => [lf] | _ => concat (map (fun kv => lf :: xml_entry l kv) sorted) end ++ tail).
  { destruct sorted as [|kv sorted]; [done|]. rewrite app_assoc. rewrite join_body by done. rewrite map_map. done. }
  rewrite <- K. reflexivity.
Qed.
Lemma read_tail n d : xloop (2 + n) (XState [B "language"] d None) tail = XOk d.
Proof. reflexivity. Qed.
Lemma entry_long l kv : (4 <= length (lf :: xml_entry l kv))%nat.
Proof. unfold xml_entry. cbn [length]. rewrite app_length. simpl. lia. Qed.
Lemma entries_long l kvs : (4 * length kvs <= length (concat (map (fun kv => lf :: xml_entry l kv) kvs)))%nat.
Proof.
  induction kvs as [|kv kvs IH]; [done|]. cbn [map concat]. rewrite app_length. pose proof (entry_long l kv). cbn [length] in *. lia.
Qed.

(** A whole document of good entries. *)
Lemma unmarshal_good l sorted : header_text l -> Forall (entry_text l) sorted ->
  unmarshal (head l (match sorted with [] => [lf] | _ => concat (map (fun kv => lf :: xml_entry l kv) sorted) end ++ tail)) =
  XOk (XDoc (l_name l) (l_tag l) (map (read_as l) sorted)).
Proof.
  intros Hh Hs. unfold unmarshal.
  assert (L : forall s, (63 <= length (head l s) - length s)%nat).
  { intros s. unfold head. rewrite !app_length. simpl. lia. }
  destruct sorted as [|kv sorted].
  - set (s := [lf] ++ tail). pose proof (L s). change (length s) with 13%nat in H.
    replace (S (length (head l s))) with (3 + (2 + (S (length (head l s)) - 5)))%nat by lia.
    rewrite read_head by done. reflexivity.
  - set (kvs := kv :: sorted) in *. cbv beta iota.
    change (match kvs with [] => [lf] | _ :: _ => concat (map (fun kv0 => lf :: xml_entry l kv0) kvs) end)
      with (concat (map (fun kv0 => lf :: xml_entry l kv0) kvs)).
    set (s := concat (map (fun kv0 => lf :: xml_entry l kv0) kvs) ++ tail). pose proof (L s).
    assert (length s >= 4 * length kvs)%nat by (unfold s; rewrite app_length; pose proof (entries_long l kvs); lia).
    replace (S (length (head l s))) with (3 + (4 * length kvs + (2 + (S (length (head l s)) - 5 - 4 * length kvs))))%nat by lia.
    rewrite read_head by done. unfold s. rewrite read_entries by done. rewrite read_tail. done.
Qed.
(** A document whose entries before a bad one are good: the reader arrives there. *)
Lemma unmarshal_bad l pre x : header_text l -> Forall (entry_text l) pre ->
  (forall n d, xloop (20 + n) (XState [B "language"] d None) x = XErr) ->
  unmarshal (head l (concat (map (fun kv => lf :: xml_entry l kv) pre) ++ x)) = XErr.
Proof.
  intros Hh Hp Hx. unfold unmarshal.
  set (s := concat (map (fun kv0 => lf :: xml_entry l kv0) pre) ++ x).
  assert (L : (63 <= length (head l s) - length s)%nat).
  { unfold head. rewrite !app_length. simpl. lia. }
  assert (length s >= 4 * length pre)%nat by (unfold s; rewrite app_length; pose proof (entries_long l pre); lia).
  replace (S (length (head l s))) with (3 + (4 * length pre + (20 + (S (length (head l s)) - 23 - 4 * length pre))))%nat by lia.
  rewrite read_head by done. unfold s. rewrite read_entries by done. apply Hx.
Qed.

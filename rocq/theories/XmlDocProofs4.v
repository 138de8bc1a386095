(** * A document written out (the concrete case of C95). *)
From Verif Require Import GoBase GoStrings LangModel LangSpec XmlModel XmlSpec XmlProofs6 XmlDocSpec XmlDocProofs XmlDocProofs2 XmlDocProofs3.

(** A document with blanks, another order of the attributes, an unknown attribute, single quotes, a reference, a comment and another element. *)
Definition C95_text : bytes :=
  B "<!-- by hand --> <language lang='en' id=""t"">" ++ [lf] ++ B "<entry verified='no' id='a' >1 &lt; &#x32;<!-- ! --></entry><note/></language >".
Lemma text_document : document (B "language") C95_text (XDoc (B "t") (B "en") [(B "a", B "1 < 2", [])]).
Proof.
  assert (R : forall s, forallb (fun c => negb (is_byte 60 c || is_byte 38 c || is_byte 39 c || is_byte 34 c || is_byte 13 c) && (32 <=? ord c)%Z && (ord c <? 128)%Z) s = true ->
             forall q, q = None \/ q = Some (byte 34) \/ q = Some (byte 39) -> run q s /\ unix s = s).
  { intros s H q Hq. rewrite forallb_forall in H. 
    assert (N : forall z, (z = 60 \/ z = 38 \/ z = 39 \/ z = 34 \/ z = 13)%Z -> chr_of z ∉ s).
    { intros z Hz K. apply elem_of_list_In in K. specialize (H _ K). by destruct Hz as [->|[->|[->|[->| ->]]]]. }
    split; [split_and!|].
    - apply XmlProofs.legal_iff. clear -H. induction s as [|c s IH]; [done|]. cbn [legal]. pose proof (H c (or_introl eq_refl)) as Hc.
      rewrite !andb_true_iff in Hc. destruct Hc as [[_ H32] H128]. rewrite H128, H32, orb_true_r. apply IH. intros x Hx. apply H. by right.
    - apply (N 60%Z); lia.
    - apply (N 38%Z); lia.
    - intros c Hc. destruct Hq as [->|[->| ->]]; [done| |]; injection Hc as <-; [apply (N 34%Z)|apply (N 39%Z)]; lia.
    - apply XmlProofs2.unix_no_cr. apply (N 13%Z); lia. }
  assert (S1 : forall s q, forallb (fun c => negb (is_byte 60 c || is_byte 38 c || is_byte 39 c || is_byte 34 c || is_byte 13 c) && (32 <=? ord c)%Z && (ord c <? 128)%Z) s = true ->
             q = None \/ q = Some (byte 34) \/ q = Some (byte 39) -> spells q s s).
  { intros s q H Hq. destruct (R s H q Hq) as [H1 H2]. rewrite <- H2 at 2. by constructor. }
  assert (A : attrs_text [(B "lang", B "en"); (B "id", B "t")] (B " lang='en' id=""t""")).
  { refine (at_cons (B " ") (B "lang") [] [] (byte 39) (B "en") (B "en") _ (B " id=""t""") _ _ _ _ _ _ _ _ _ _); try done; [by apply white_dec|by apply name_by_letters|constructor|constructor|by right|by apply S1; [|right;right]| |].
    - apply (bool_decide_unpack _); by vm_compute.
    - refine (at_cons (B " ") (B "id") [] [] (byte 34) (B "t") (B "t") _ [] _ _ _ _ _ _ _ _ _ at_nil); try done; [by apply white_dec|by apply name_by_letters|constructor|constructor|by left|by apply S1; [|right;left]|by apply not_elem_of_nil]. }
  assert (A2 : attrs_text [(B "verified", B "no"); (B "id", B "a")] (B " verified='no' id='a'")).
  { refine (at_cons (B " ") (B "verified") [] [] (byte 39) (B "no") (B "no") _ (B " id='a'") _ _ _ _ _ _ _ _ _ _); try done; [by apply white_dec|by apply name_by_letters|constructor|constructor|by right|by apply S1; [|right;right]| |].
    - apply (bool_decide_unpack _); by vm_compute.
    - refine (at_cons (B " ") (B "id") [] [] (byte 39) (B "a") (B "a") _ [] _ _ _ _ _ _ _ _ _ at_nil); try done; [by apply white_dec|by apply name_by_letters|constructor|constructor|by right|by apply S1; [|right;right]|by apply not_elem_of_nil]. }
  assert (NC : forall s, ">"%char ∉ s -> ~ contains (B "]]>") s) by (intros s Hs (x & y & ->); apply Hs; set_solver).
  assert (ND : forall s, "-"%char ∉ s -> ~ contains (B "--") (s ++ B "-")).
  { intros s Hs (x & y & E). destruct y as [|z y _] using rev_ind.
    - assert (x ++ B "--" = (x ++ B "-") ++ B "-") as K by (by rewrite <- app_assoc). rewrite app_nil_r, K in E. apply app_inj_tail in E as [-> _]. apply Hs. set_solver.
    - rewrite !app_assoc in E. apply app_inj_tail in E as [-> _]. apply Hs. set_solver. }
  assert (X : char_text (B "1 &lt; &#x32;") (B "1 < 2")).
  { split; [|apply NC, (bool_decide_unpack _); by vm_compute].
    destruct (R (B "1 ") eq_refl None (or_introl eq_refl)) as [R1 _]. destruct (R (B " ") eq_refl None (or_introl eq_refl)) as [R2 _].
    refine (sp_ref None (B "1 ") (B "&lt;") (B "<") (B " &#x32;") (B " 2") R1 re_lt _).
    refine (sp_ref None (B " ") (B "&#x32;") (B "2") [] [] R2 _ (S1 [] None eq_refl (or_introl eq_refl))).
    refine (re_hex (B "32") 50 (nu_more 16 (B "3") 3 "2"%char 2 (nu_one 16 "3"%char 3 _) _) _).
    - split; [lia|by left].
    - split; [lia|by left].
    - unfold xml_char; lia. }
  assert (E : element (B "entry") [(B "verified", B "no"); (B "id", B "a")] (B "<entry verified='no' id='a' >1 &lt; &#x32;<!-- ! --></entry>") (B "1 < 2")).
  { refine (el_open (B "entry") _ _ (B " ") (B "1 &lt; &#x32;<!-- ! -->") (B "1 < 2") [] (name_by_letters (B "entry") eq_refl) A2 (white_dec (B " ") eq_refl) _ (white_dec [] eq_refl)).
    refine (in_more _ _ (B "<!-- ! -->") [] [] [] X (mk_remark _ (rm_comment (B " ! ") _)) (in_text _ _ empty_text)). apply ND, (bool_decide_unpack _); by vm_compute. }
  assert (E2 : element (B "note") [] (B "<note/>") []) by exact (el_empty (B "note") [] [] [] (name_by_letters (B "note") eq_refl) at_nil (white_dec [] eq_refl)).
  refine (do_open (B "language") [] (B "<!-- by hand --> ") _ _ [] ([lf] ++ B "<entry verified='no' id='a' >1 &lt; &#x32;<!-- ! --></entry><note/>") _ (B " ") (B "t") (B "en")
    de_none _ (name_by_letters (B "language") eq_refl) A (white_dec [] eq_refl) _ (white_dec (B " ") eq_refl) ltac:(left; right; left) ltac:(left; left)).
  - refine (pr_more [] (B "<!-- by hand -->") (B " ") (white_dec [] eq_refl) (rm_comment (B " by hand ") _) (pr_white _ (white_dec (B " ") eq_refl))). apply ND, (bool_decide_unpack _); by vm_compute.
  - refine (bo_entry [lf] [lf] _ (B "<entry verified='no' id='a' >1 &lt; &#x32;<!-- ! --></entry>") _ (B "a") [] (B "<note/>") [] _ E ltac:(left; right; left) _ _).
    + apply (white_chars [lf]). by apply white_dec.
    + right. split; [|done]. apply (bool_decide_unpack _); by vm_compute.
    + exact (bo_other [] [] _ _ _ _ [] [] empty_text E2 ltac:(done) (bo_text [] [] empty_text)).
Qed.

(** * What follows a text that was read is not read; texts that are rejected (C95). *)
From Verif Require Import GoBase GoStrings LangModel LangSpec XmlModel XmlSpec XmlProofs XmlProofs2 XmlProofs3 XmlProofs6 XmlDocSpec XmlDocProofs XmlDocProofs2 XmlDocProofs3.
Local Open Scope Z_scope.

(** ** Reading more than was needed *)
Lemma read_name_more s x : (read_name s).2 <> [] -> read_name (s ++ x) = ((read_name s).1, (read_name s).2 ++ x).
Proof.
  induction s as [|c s IH]; [done|]. simpl. destruct (name_byte c); [|done]. destruct (read_name s) as [w r]. simpl in *. intros H. by rewrite IH.
Qed.
Lemma read_name_len s : (length (read_name s).2 <= length s)%nat.
Proof. induction s as [|c s IH]; [done|]. simpl. destruct (name_byte c); [|done]. destruct (read_name s) as [w r]. simpl in *. lia. Qed.
Lemma read_name_used s : (read_name s).1 <> [] -> (length (read_name s).2 < length s)%nat.
Proof. destruct s as [|c s]; [done|]. simpl. destruct (name_byte c); [|done]. pose proof (read_name_len s). destruct (read_name s) as [w r]. simpl in *. lia. Qed.
Lemma skip_more s x : skip_space s <> [] -> skip_space (s ++ x) = skip_space s ++ x.
Proof. induction s as [|c s IH]; [done|]. simpl. destruct (blank_byte c); [exact IH|done]. Qed.
Lemma skip_len s : (length (skip_space s) <= length s)%nat.
Proof. induction s as [|c s IH]; [done|]. simpl. destruct (blank_byte c); simpl; lia. Qed.
Definition more {A} (r : xres (A * bytes)) (x : bytes) : xres (A * bytes) := match r with XOk (a, s) => XOk (a, s ++ x) | XErr => XErr | XOther => XOther end.
Lemma xname_more s x : xname s <> XErr -> xname (s ++ x) = more (xname s) x.
Proof.
  unfold xname. destruct (read_name s) as [w r] eqn:E. intros H. assert (r <> []) as Hr by (intros ->; by destruct w).
  rewrite read_name_more by (by rewrite E). rewrite E. simpl. destruct w as [|c w]; [done|]. destruct r as [|y r]; [done|].
  simpl. destruct (_ || _ || _); [done|]. by destruct (name_start c).
Qed.
Lemma xname_len s w r : xname s = XOk (w, r) -> (length r < length s)%nat.
Proof.
  unfold xname. pose proof (read_name_used s) as H. destruct (read_name s) as [w' r'] eqn:E. simpl in H. destruct w' as [|c w']; [done|]. destruct r' as [|y r']; [done|].
  destruct (existsb _ _); [done|]. destruct (name_start c); [|done]. intros [= <- <-]. by apply H.
Qed.
Lemma number_more b s x : forall acc, (read_number b acc s).2 <> [] -> read_number b acc (s ++ x) = ((read_number b acc s).1, (read_number b acc s).2 ++ x).
Proof. induction s as [|c s IH]; intros acc; [done|]. cbn [read_number app]. destruct (if b =? 16 then _ else _); [apply IH|done]. Qed.
Lemma number_len b s : forall acc, (length (read_number b acc s).2 <= length s)%nat.
Proof. induction s as [|c s IH]; intros acc; [done|]. cbn [read_number]. destruct (if b =? 16 then _ else _) as [d|]; [specialize (IH (Some (b * match acc with Some a => a | None => 0 end + d))); simpl; lia|simpl; lia]. Qed.
Lemma entity_more s x t r : entity s = XOk (t, r) -> entity (s ++ x) = XOk (t, r ++ x) /\ (length r < length s)%nat.
Proof.
  destruct s as [|c s]; [done|]. unfold entity. cbn [app]. destruct (is_byte 35 c).
  - assert (K : forall q x0, (forall n r0, q = (n, r0) -> r0 <> [] -> x0 = (n, r0 ++ x) /\ (length r0 <= length s)%nat) ->
      (let '(n, r0) := q in match n with Some n0 => match r0 with [] => XErr | e :: r' => if is_byte 59 e && (n0 <=? 1114111) then XOk (utf8 n0, r') else XErr end | None => XErr end) = XOk (t, r) ->
      (let '(n, r0) := x0 in match n with Some n0 => match r0 with [] => XErr | e :: r' => if is_byte 59 e && (n0 <=? 1114111) then XOk (utf8 n0, r') else XErr end | None => XErr end) = XOk (t, r ++ x) /\
      (length r < length (c :: s))%nat).
    { intros [n r0] x0 Hx. destruct n as [n|]; [|done]. destruct r0 as [|e r0]; [done|]. destruct (Hx _ _ eq_refl) as [-> Hl]; [done|]. cbn [app].
      destruct (is_byte 59 e && (n <=? 1114111)); [|done]. intros [= <- <-]. split; [done|]. simpl in *. lia. }
    apply K. clear K. intros n r0 E Hr. destruct s as [|y s]; [injection E as <- <-; done|]. cbn [app]. destruct (is_byte 120 y).
    + pose proof (number_len 16 s None) as Hl. rewrite number_more by (by rewrite E). rewrite E in *. simpl in *. split; [done|lia].
    + change (y :: s ++ x) with ((y :: s) ++ x). pose proof (number_len 10 (y :: s) None) as Hl. rewrite number_more by (by rewrite E). rewrite E in *. split; [done|exact Hl].
  - change (c :: s ++ x) with ((c :: s) ++ x). pose proof (read_name_len (c :: s)) as Hl. pose proof (read_name_more (c :: s) x) as Hm.
    destruct (read_name (c :: s)) as [w [|e r']]; [done|]. rewrite Hm by done. simpl in Hl. cbn [fst snd app]. destruct (is_byte 59 e); [|done].
    repeat (destruct (bool_decide _); [intros [= <- <-]; split; [done|simpl in *; lia]|]). done.
Qed.
Lemma entity_known s : entity s <> XOther.
Proof.
  destruct s as [|c s]; [done|]. unfold entity. destruct (is_byte 35 c).
  - destruct (match s with [] => _ | _ => _ end) as [[n|] [|e r]]; try done. by destruct (_ && _).
  - destruct (read_name (c :: s)) as [w [|e r]]; try done. destruct (is_byte 59 e); [|done]. by repeat (destruct (bool_decide _); [done|]).
Qed.
Lemma xtext_more q cd x : forall n b0 b1 acc s v r, xtext n q cd b0 b1 acc s = XOk (v, r) ->
  (length r <= length s)%nat /\ (cd = true \/ r <> [] -> forall m, (length (s ++ x) < m)%nat -> xtext m q cd b0 b1 acc (s ++ x) = XOk (v, r ++ x)).
Proof.
  assert (Hfin : forall d r0 v r, finish d r0 = XOk (v, r) -> v = d /\ r = r0 /\ forall y, finish d y = XOk (d, y)).
  { intros d r0 v r. unfold finish. destruct (legal d); [|done]. by intros [= <- <-]. }
  induction n as [|n IH]; intros b0 b1 acc s v r H; [done|]. cbn [xtext] in H. destruct s as [|b s].
  { destruct cd; [done|]. apply Hfin in H as (-> & -> & _). split; [done|]. by intros [?|?]. }
  assert (Hstep : forall b0' b1' acc', xtext n q cd b0' b1' acc' s = XOk (v, r) -> (length r <= length (b :: s))%nat /\
    (cd = true \/ r <> [] -> forall m, (length (s ++ x) < m)%nat -> xtext m q cd b0' b1' acc' (s ++ x) = XOk (v, r ++ x))).
  { intros b0' b1' acc' H'. apply IH in H' as [Hl Hx]. split; [simpl; lia|exact Hx]. }
  enough (E : (length r <= length (b :: s))%nat /\ (cd = true \/ r <> [] -> forall m, (length (s ++ x) < m)%nat -> xtext (S m) q cd b0 b1 acc ((b :: s) ++ x) = XOk (v, r ++ x))).
  { destruct E as [E1 E2]. split; [done|]. intros Hr [|m] Hm; [simpl in Hm; lia|]. apply E2; [done|]. simpl in Hm. lia. }
  cbn [app xtext]. destruct (bool_decide (q = None) && is_byte 93 b0 && is_byte 93 b1 && is_byte 62 b).
  { destruct cd; [|done]. apply Hfin in H as (-> & -> & Hf). split; [simpl; lia|]. intros _ m _. apply Hf. }
  destruct (is_byte 60 b && negb cd).
  { destruct q; [done|]. apply Hfin in H as (-> & -> & Hf). split; [simpl; lia|]. intros _ m _. apply Hf. }
  destruct (bool_decide (q = Some b)).
  { apply Hfin in H as (-> & -> & Hf). split; [simpl; lia|]. intros _ m _. apply Hf. }
  destruct (is_byte 38 b && negb cd).
  { destruct (entity s) as [[t r0]| |] eqn:E; try done. cbn [xbind] in H. destruct (entity_more s x t r0 E) as [-> Hl0]. cbn [xbind].
    apply IH in H as [Hl Hx]. split; [simpl; lia|]. intros Hr m Hm. apply Hx; [done|]. rewrite !app_length in *. lia. }
  destruct (is_byte 13 b); [by apply Hstep|]. destruct (is_byte 13 b1 && is_byte 10 b); by apply Hstep.
Qed.
Lemma xtext_known q cd : forall n b0 b1 acc s, (length s < n)%nat -> xtext n q cd b0 b1 acc s <> XOther.
Proof.
  assert (Hf : forall d r, finish d r <> XOther) by (intros d r; unfold finish; by destruct (legal d)).
  induction n as [|n IH]; intros b0 b1 acc s Hn; [lia|]. cbn [xtext]. destruct s as [|b s]; [by destruct cd|]. simpl in Hn.
  destruct (bool_decide (q = None) && _ && _ && _); [by destruct cd|]. destruct (is_byte 60 b && _); [by destruct q|]. destruct (bool_decide (q = Some b)); [done|].
  destruct (is_byte 38 b && _).
  { destruct (entity s) as [[t r0]| |] eqn:E; [|done|by apply entity_known in E]. cbn [xbind]. destruct (entity_more s [] t r0 E) as [_ Hl]. apply IH. lia. }
  destruct (is_byte 13 b); [apply IH; lia|]. destruct (is_byte 13 b1 && is_byte 10 b); apply IH; lia.
Qed.
Lemma text_more q cd s x v r : text q cd s = XOk (v, r) -> (length r <= length s)%nat /\ (cd = true \/ r <> [] -> text q cd (s ++ x) = XOk (v, r ++ x)).
Proof. intros H. apply (xtext_more q cd x) in H as [Hl Hx]. split; [done|]. intros Hr. apply Hx; [done|lia]. Qed.
Lemma text_known q cd s : text q cd s <> XOther.
Proof. apply xtext_known. lia. Qed.
Lemma text_used c s v r : is_byte 60 c = false -> text None false (c :: s) = XOk (v, r) -> (length r < length (c :: s))%nat.
Proof.
  intros Hc H. unfold text in H. cbn [xtext] in H. change (is_byte 93 nul) with false in H. rewrite !andb_false_r, Hc in H. cbn [andb] in H.
  rewrite bool_decide_eq_false_2 in H by done. change (is_byte 13 nul) with false in H. cbn [andb negb] in H. destruct (is_byte 38 c); cbn [andb] in H.
  - destruct (entity s) as [[t r0]| |] eqn:E; try done. cbn [xbind] in H. destruct (entity_more s [] t r0 E) as [_ Hl]. apply (xtext_more None false []) in H as [Hl2 _]. simpl. lia.
  - destruct (is_byte 13 c); apply (xtext_more None false []) in H as [Hl2 _]; simpl in *; lia.
Qed.

(** ** Start tags *)
Definition more3 (r : xres (list (bytes * bytes) * bool * bytes)) (x : bytes) := match r with XOk (al, e, s) => XOk (al, e, s ++ x) | XErr => XErr | XOther => XOther end.
Lemma xattrs_more x : forall n acc s, (length s < n)%nat -> xattrs n acc s <> XErr -> forall m, (length (s ++ x) < m)%nat -> xattrs m acc (s ++ x) = more3 (xattrs n acc s) x.
Proof.
  induction n as [|n IH]; intros acc s Hn H [|m] Hm; [lia|lia|lia|]. cbn [xattrs] in *.
  destruct (skip_space s) as [|b s1] eqn:Es; [done|]. rewrite skip_more by (by rewrite Es). pose proof (skip_len s) as Hl. rewrite Es in *. cbn [app].
  destruct (is_byte 47 b). { destruct s1 as [|c s2]; [done|]. cbn [app]. by destruct (is_byte 62 c). }
  destruct (is_byte 62 b); [done|]. change (b :: s1 ++ x) with ((b :: s1) ++ x).
  pose proof (read_name_more (b :: s1) x) as Hr. pose proof (read_name_len (b :: s1)) as Hrl. pose proof (xname_more (b :: s1) x) as Hx. pose proof (xname_len (b :: s1)) as Hxl.
  destruct (skip_space (read_name (b :: s1)).2) as [|e r1] eqn:Ek; [done|].
  assert ((read_name (b :: s1)).2 <> []) as Hne by (intros E; by rewrite E in Ek). rewrite Hr by done. cbn [snd]. rewrite skip_more by (by rewrite Ek). pose proof (skip_len (read_name (b :: s1)).2) as Hkl.
  rewrite Ek in *. cbn [app]. destruct (is_byte 61 e); [|done]. destruct (xname (b :: s1)) as [[w r]| |] eqn:Ew; [|done|].
  2:{ cbn [app] in Hx. by rewrite Hx. }
  cbn [app] in Hx. rewrite Hx by done. cbn [more xbind] in *. destruct (skip_space r1) as [|q r2] eqn:Eq; [done|]. rewrite skip_more by (by rewrite Eq). pose proof (skip_len r1) as Hql. rewrite Eq in *. cbn [app].
  destruct (is_byte 34 q || is_byte 39 q); [|done]. destruct (text (Some q) false r2) as [[v r3]| |] eqn:Et; [|done|by apply text_known in Et]. cbn [xbind] in *.
  destruct (text_more _ _ _ x _ _ Et) as [Htl Htx]. destruct r3 as [|y r3]; [done|].
  rewrite Htx by (by right). cbn [xbind app]. destruct (bool_decide (w = B "xmlns")); [done|]. apply (IH _ (y :: r3)); [simpl in *; lia|done|]. rewrite !app_length in *. simpl in *. lia.
Qed.

(** ** Tokens *)
Lemma proc_more x : forall s w r, proc s = Some (w, r) -> proc (s ++ x) = Some (w, r ++ x) /\ (length r < length s)%nat.
Proof.
  induction s as [|a s IH]; intros w r H; [done|]. destruct s as [|b s]; [done|]. cbn [app]. rewrite proc_cons in *. destruct (is_byte 63 a && is_byte 62 b).
  - injection H as <- <-. split; [done|]. simpl. lia.
  - destruct (proc (b :: s)) as [[w' r']|] eqn:E; [|done]. injection H as <- <-. destruct (IH _ _ eq_refl) as [Hx Hl]. cbn [app] in Hx. rewrite Hx. split; [done|simpl in *; lia].
Qed.
Lemma comment_more x : forall s b0 b1 r, comment b0 b1 s = Some r -> comment b0 b1 (s ++ x) = Some (r ++ x) /\ (length r < length s)%nat.
Proof.
  induction s as [|b s IH]; intros b0 b1 r H; [done|]. cbn [comment app] in *. destruct (is_byte 45 b0 && is_byte 45 b1).
  - destruct (is_byte 62 b); [|done]. injection H as <-. split; [done|simpl; lia].
  - apply IH in H as [Hx Hl]. split; [done|simpl; lia].
Qed.
Lemma strip_more p x : forall s r, strip_prefix p s = Some r -> strip_prefix p (s ++ x) = Some (r ++ x) /\ (length r <= length s)%nat.
Proof.
  induction p as [|c p IH]; intros s r H; [simpl in *; injection H as <-; done|]. destruct s as [|d s]; [done|]. cbn [strip_prefix app] in *.
  destruct (ascii_dec c d); [|done]. apply IH in H as [Hx Hl]. split; [done|simpl; lia].
Qed.
Definition chars (t : token) : bool := match t with TChars _ => true | _ => false end.
Lemma token_more s x : s <> [] -> raw_token s <> XErr ->
  match raw_token s with
  | XOk None => False
  | XOk (Some (t, r)) => (length r < length s)%nat /\ (chars t = false \/ r <> [] -> raw_token (s ++ x) = XOk (Some (t, r ++ x)))
  | XErr => True
  | XOther => raw_token (s ++ x) = XOther
  end.
Proof.
  destruct s as [|b s1]; [done|]. intros _ H. unfold raw_token in *. cbn [app]. destruct (is_byte 60 b) eqn:E60.
  - destruct s1 as [|c s2]; [done|]. cbn [app]. destruct (is_byte 47 c).
    { pose proof (xname_more s2 x) as Hx. destruct (xname s2) as [[w r]| |] eqn:Ew; [|done|by rewrite Hx]. rewrite Hx by done. cbn [more xbind] in *. apply xname_len in Ew.
      destruct (skip_space r) as [|e r1] eqn:Ek; [done|]. rewrite skip_more by (by rewrite Ek). pose proof (skip_len r) as Hl. rewrite Ek in *. cbn [app].
      destruct (is_byte 62 e); [|done]. split; [simpl in *; lia|done]. }
    destruct (is_byte 63 c).
    { pose proof (xname_more s2 x) as Hx. destruct (xname s2) as [[w r]| |] eqn:Ew; [|done|by rewrite Hx]. rewrite Hx by done. cbn [more xbind] in *. apply xname_len in Ew.
      destruct (proc (skip_space r)) as [[data r1]|] eqn:Ep; [|done]. destruct (proc_more x _ _ _ Ep) as [Hp Hpl]. pose proof (skip_len r) as Hl.
      rewrite skip_more by (intros E; by rewrite E in Ep). rewrite Hp. destruct (_ && _); [done|]. split; [simpl in *; lia|done]. }
    destruct (is_byte 33 c).
    { destruct s2 as [|d s3]; [done|]. cbn [app]. destruct (is_byte 91 d).
      { destruct (strip_prefix (B "CDATA[") s3) as [r|] eqn:Er; [|done]. destruct (strip_more _ x _ _ Er) as [-> Hl].
        destruct (text None true r) as [[v r1]| |] eqn:Et; [|done|by apply text_known in Et]. destruct (text_more _ _ _ x _ _ Et) as [Htl Htx]. cbn [xbind].
        rewrite Htx by (by left). split; [simpl in *; lia|done]. }
      destruct (is_byte 45 d); [|done]. destruct s3 as [|e s4]; [done|]. cbn [app]. destruct (is_byte 45 e); [|done].
      destruct (comment nul nul s4) as [r|] eqn:Ec; [|done]. destruct (comment_more x _ _ _ _ Ec) as [-> Hl]. split; [simpl in *; lia|done]. }
    change (c :: s2 ++ x) with ((c :: s2) ++ x). pose proof (xname_more (c :: s2) x) as Hx. destruct (xname (c :: s2)) as [[w r]| |] eqn:Ew; [|done|by rewrite Hx].
    rewrite Hx by done. cbn [more xbind] in *. apply xname_len in Ew. pose proof (xattrs_more x (S (length r)) [] r (Nat.lt_succ_diag_r _)) as Ha.
    destruct (xattrs (S (length r)) [] r) as [[[al e] r1]| |] eqn:Exa; [|done|].
    2:{ by rewrite (Ha ltac:(done) (S (length (r ++ x))) ltac:(lia)). }
    rewrite (Ha ltac:(done) (S (length (r ++ x))) ltac:(lia)). cbn [more3 xbind]. split; [|done].
    enough (forall n acc s al e r, xattrs n acc s = XOk (al, e, r) -> (length r <= length s)%nat) as K by (apply K in Exa; simpl in *; lia).
    clear. induction n as [|n IH]; intros acc s al e r H; [done|]. cbn [xattrs] in H. pose proof (skip_len s) as Hl. destruct (skip_space s) as [|b s1]; [done|].
    destruct (is_byte 47 b). { destruct s1 as [|c s2]; [done|]. destruct (is_byte 62 c); [|done]. injection H as <- <- <-. simpl in *. lia. }
    destruct (is_byte 62 b). { injection H as <- <- <-. simpl in *. lia. }
    pose proof (read_name_len (b :: s1)) as Hrl. pose proof (skip_len (read_name (b :: s1)).2) as Hkl. destruct (skip_space (read_name (b :: s1)).2) as [|e' r1]; [done|].
    destruct (is_byte 61 e'); [|done]. destruct (xname (b :: s1)) as [[w r']| |]; try done. cbn [xbind] in H. pose proof (skip_len r1) as Hql. destruct (skip_space r1) as [|q r2]; [done|].
    destruct (is_byte 34 q || is_byte 39 q); [|done]. destruct (text (Some q) false r2) as [[v r3]| |] eqn:Et; try done. cbn [xbind] in H. apply (text_more _ _ _ []) in Et as [Htl _].
    destruct r3 as [|y r3]; [done|]. destruct (bool_decide (w = B "xmlns")); [done|]. apply IH in H. simpl in *. lia.
  - destruct (text None false (b :: s1)) as [[v r]| |] eqn:Et; [|done|by apply text_known in Et]. cbn [xbind]. split; [by eapply text_used|].
    intros Hr. destruct Hr as [?|Hr]; [done|]. destruct (text_more _ _ _ x _ _ Et) as [_ Htx]. change (b :: s1 ++ x) with ((b :: s1) ++ x). by rewrite Htx by (by right).
Qed.

(** ** The whole text *)
Lemma end_known st w : end_element st w <> XOther.
Proof. unfold end_element. destruct (xs_open st) as [|o [|o1 os]]; [done|by destruct (bool_decide _)|]. destruct (bool_decide _); [by destruct os|done]. Qed.
Lemma xloop_more x : forall n st s, (length s < n)%nat -> xloop n st s <> XErr -> forall m, (length (s ++ x) < m)%nat -> xloop m st (s ++ x) = xloop n st s.
Proof.
  induction n as [|n IH]; intros st s Hn H [|m] Hm; [lia|lia|lia|]. rewrite !xloop_S in *. destruct (decide (s = [])) as [->|Hs]; [done|].
  pose proof (token_more s x Hs) as Ht. destruct (raw_token s) as [[[t r]|]| |]; [|by destruct Ht|done|].
  2:{ by rewrite Ht. }
  destruct Ht as [Hl Ht]; [done|]. cbn [xbind] in H. destruct (decide (chars t = false \/ r <> [])) as [Hd|Hd].
  - rewrite Ht by done. cbn [xbind]. destruct (take_token st t) as [[d|st']| |] eqn:Ek; try done. cbn [xbind] in *. apply IH; [lia|done|]. rewrite !app_length in *. lia.
  - exfalso. apply Decidable.not_or in Hd as [Hd1 Hd2]. assert (r = []) as -> by (by destruct r; [|destruct Hd2]). destruct t; try done. cbn [take_token xbind] in H.
    destruct n; [lia|]. by rewrite xloop_S in H.
Qed.
Lemma unmarshal_more s x : unmarshal s <> XErr -> unmarshal (s ++ x) = unmarshal s.
Proof. intros H. unfold unmarshal in *. apply xloop_more; [lia|done|lia]. Qed.

(** ** Rejected texts *)
Lemma given_ex al k : exists v, given al k v.
Proof.
  destruct (decide (k ∈ map fst al)) as [H|H]; [|exists []; by right]. apply elem_of_list_fmap in H as ([k' v] & -> & H). exists v. by left.
Qed.
Lemma inner_body r u : inner r u -> exists es, body r es.
Proof.
  induction 1 as [s u H|s u m v r w Hs Hm _ [es IH]]; [exists []; by eapply bo_text|]. destruct Hm as [v Hv|m Hm|n al m v He].
  - exists es. by eapply bo_cdata.
  - exists es. by eapply bo_remark.
  - destruct (decide (n = B "entry")) as [->|Hn]; [|exists es; by eapply bo_other].
    destruct (given_ex al (B "id")) as [id Hid], (given_ex al (B "status")) as [st Hst]. exists ((id, v, st) :: es). by eapply bo_entry.
Qed.
Definition st0 : xstate := XState [] (XDoc [] [] []) None.
Definition sound_state (st : xstate) : Prop := xs_open st <> [] /\ (length (xs_open st) = 1%nat -> xs_entry st = None).
Lemma eats_content st r u : sound_state st -> inner r u -> exists st', eats_lt st r st' /\ xs_open st' = xs_open st /\ sound_state st'.
Proof.
  intros [Hn He] Hr. destruct st as [[|a [|b o]] d e]; [done| |].
  - specialize (He eq_refl). simpl in He. subst e. destruct (inner_body r u Hr) as [es Hb]. eexists. split; [by apply eats_body|]. done.
  - eexists. split; [apply eats_inner; [done|unfold deep; simpl; lia]|]. rewrite char_data_open. split; [done|]. unfold sound_state. by rewrite char_data_open.
Qed.
Lemma eats_opens ns s : opens ns s -> exists st, eats st0 s st /\ xs_open st = ns /\ sound_state st.
Proof.
  induction 1 as [de p n al a w1 Hde Hp Hn Ha Hw1|ns s r u n al a w1 _ (st & Hs & <- & Hst) Hr Hn Ha Hw1].
  - exists (start_element st0 n al). split; [|done]. eapply eats_cat; [by apply eats_decl|]. eapply lt_cat; [by apply eats_prolog|by eexists|].
    eapply eats_token; [done|intros rest; by apply (token_tag n al a w1 false)|done].
  - destruct (eats_content st r u Hst Hr) as (st' & He & Ho & Hst'). exists (start_element st' n al). split; [|split].
    + eapply eats_cat; [done|]. eapply lt_cat; [done|by eexists|]. eapply eats_token; [done|intros rest; by apply (token_tag n al a w1 false)|done].
    + rewrite <- Ho. destruct st' as [[|a' [|b' o']] d' e']; [by destruct Hst'|done|done].
    + destruct st' as [[|a' [|b' o']] d' e']; [by destruct Hst'| |]; done.
Qed.
Lemma eats_unmarshal s st rest : eats st0 s st -> exists n, (length rest < n)%nat /\ unmarshal (s ++ rest) = xloop n st rest.
Proof.
  intros (k & Hk & H). unfold unmarshal. fold st0. exists (S (length (s ++ rest)) - k)%nat. rewrite app_length. split; [lia|].
  replace (S (length s + length rest)) with (k + (S (length s + length rest) - k))%nat by lia. rewrite H. f_equal. lia.
Qed.
Lemma eats_lt_unmarshal s st rest : eats_lt st0 s st -> exists n, (length rest < n)%nat /\ unmarshal (s ++ byte 60 :: rest) = xloop n st (byte 60 :: rest).
Proof.
  intros (k & Hk & H). unfold unmarshal. fold st0. exists (S (length (s ++ byte 60 :: rest)) - k)%nat. rewrite app_length. split; [simpl; lia|].
  replace (S (length s + length (byte 60 :: rest))) with (k + (S (length s + length (byte 60 :: rest)) - k))%nat by lia. rewrite H. f_equal. lia.
Qed.
Lemma mismatched n ns s r u m w rest : opens (n :: ns) s -> inner r u -> xml_name m -> white w -> m <> n ->
  unmarshal (s ++ r ++ B "</" ++ m ++ w ++ B ">" ++ rest) = XErr.
Proof.
  intros Ho Hr Hm Hw Hne. destruct (eats_opens _ _ Ho) as (st & Hs & Hop & Hst). destruct (eats_content st r u Hst Hr) as (st' & He & Ho' & _).
  destruct (eats_lt_unmarshal (s ++ r) st' (B "/" ++ m ++ w ++ B ">" ++ rest)) as (k & Hk & E); [by eapply eats_lt_cat|]. rewrite <- app_assoc in E.
  etransitivity; [exact E|]. destruct k as [|k]; [lia|]. rewrite xloop_S. change (byte 60 :: B "/" ++ ?x) with (B "</" ++ x). rewrite token_end by done.
  cbn [xbind take_token]. unfold end_element. rewrite Ho', Hop. by rewrite bool_decide_eq_false_2.
Qed.
(** A prefix of a rejected text is rejected. *)
Lemma prefix_rejected s x : unmarshal (s ++ x) = XErr -> unmarshal s = XErr.
Proof. intros H. destruct (unmarshal s) eqn:E; [|done|]; rewrite unmarshal_more in H; congruence. Qed.
Lemma unclosed n ns s r u : opens (n :: ns) s -> inner r u -> unmarshal (s ++ r) = XErr.
Proof.
  intros Ho Hr. assert (exists m, xml_name m /\ m <> n) as (m & Hm & Hne).
  { destruct (decide (n = B "a")) as [->|Hn]; [exists (B "b")|exists (B "a")]; (split; [by apply name_by_letters|done]). }
  apply (prefix_rejected _ (B "</" ++ m ++ [] ++ B ">" ++ [])). rewrite <- app_assoc. by eapply mismatched; [..|constructor|].
Qed.

(** ** Documents that were cut off *)
Lemma xattrs_run al a : attrs_text al a -> forall n acc t, t <> [] -> xattrs (length al + n) acc (a ++ t) = xattrs n (acc ++ al) t.
Proof.
  induction 1 as [|w1 k w2 w3 q s v al r Hw1 _ Hk Hx Hw2 Hw3 Hq Hs _ _ IH]; intros n acc t Ht.
  - by rewrite app_nil_r.
  - change (length ((k, v) :: al) + n)%nat with (S (length al + n))%nat. rewrite <- !app_assoc. cbn [xattrs]. rewrite skip_white by done.
    destruct (name_head k Hk) as (c & k' & Ek & Hb & H47 & H62 & _).
    set (tl := w2 ++ B "=" ++ w3 ++ [q] ++ s ++ [q] ++ r ++ t).
    assert (Ehead : k ++ tl = c :: (k' ++ tl)) by (by rewrite Ek).
    rewrite Ehead at 1. rewrite skip_stop by done. cbn iota beta. rewrite H47, H62. rewrite <- Ehead.
    assert (Hname : xname (k ++ tl) = XOk (k, tl)) by (unfold tl; apply (xname_white k w2 "="%char); done).
    assert (Hread : (read_name (k ++ tl)).2 = tl).
    { destruct (name_plain k Hk) as (c0 & k0 & -> & _ & Hp). destruct (white_app_head w2 "="%char (w3 ++ [q] ++ s ++ [q] ++ r ++ t) (fun x => name_byte x = false) Hw2) as (x & y & E & Hx'); [done|apply white_not_name|].
      unfold tl. change (B "=" ++ ?z) with ("="%char :: z). rewrite E. by rewrite read_plain. }
    rewrite Hread, Hname. unfold tl at 1. rewrite skip_white by done. change (B "=" ++ ?z) with ("="%char :: z). rewrite skip_stop by done. cbn iota beta.
    change (is_byte 61 "="%char) with true. cbn [xbind]. rewrite skip_white by done. cbn [app].
    assert (Hqb : blank_byte q = false) by (by destruct Hq as [->| ->]). rewrite skip_stop by done. cbn iota beta.
    assert (is_byte 34 q || is_byte 39 q = true) as -> by (by destruct Hq as [->| ->]).
    rewrite (text_spells (Some q) s v q); [|done| |done].
    2:{ simpl. destruct Hq as [->| ->]; done. }
    cbn [xbind]. rewrite bool_decide_eq_false_2 by done.
    assert (exists y z, r ++ t = y :: z) as (y & z & Er) by (destruct (r ++ t) eqn:E; [by destruct r, t|eauto]).
    rewrite Er. rewrite <- Er. rewrite IH by done. by rewrite <- app_assoc.
Qed.
Lemma cut_last s y : forall s1 x : bytes, s ++ [y] = s1 ++ x -> x <> [] -> exists z, s = s1 ++ z.
Proof. intros s1 x H Hx. destruct x as [|c x _] using rev_ind; [done|]. rewrite app_assoc in H. apply app_inj_tail in H as [-> _]. by exists x. Qed.
Lemma truncated n s1 x d : document n (s1 ++ x) d -> x <> [] -> unmarshal s1 = XErr.
Proof.
  intros H Hx. remember (s1 ++ x) as s eqn:Es.
  assert (K : forall s0, s = s0 ++ B ">" -> unmarshal (s0 ++ B "<") = XErr -> unmarshal s1 = XErr).
  { intros s0 E Hu. rewrite E in Es. destruct (cut_last s0 ">"%char s1 x Es Hx) as [z ->]. rewrite <- app_assoc in Hu. by eapply prefix_rejected. }
  destruct H as [de p al a w1 r es w2 name tag Hde Hp Hn Ha Hw1 Hr Hw2 Hname Htag|de p al a w1 name tag Hde Hp Hn Ha Hw1 Hname Htag].
  - apply (K (de ++ p ++ B "<" ++ n ++ a ++ w1 ++ B ">" ++ r ++ B "</" ++ n ++ w2)); [by rewrite <- !app_assoc|].
    assert (E1 : eats st0 (de ++ p ++ B "<" ++ n ++ a ++ w1 ++ B ">") (start_element st0 n al)).
    { eapply eats_cat; [by apply eats_decl|]. eapply lt_cat; [by apply eats_prolog|by eexists|]. eapply eats_token; [done|intros rest; by apply (token_tag n al a w1 false)|done]. }
    destruct (eats_lt_unmarshal _ _ (B "/" ++ n ++ w2 ++ B "<") (eats_lt_cat _ _ _ _ _ E1 (eats_body r es Hr n _))) as (k & Hk & E).
    rewrite <- !app_assoc in E. rewrite <- !app_assoc. etransitivity; [exact E|]. destruct k as [|k]; [lia|]. rewrite xloop_S.
    enough (raw_token (byte 60 :: B "/" ++ n ++ w2 ++ B "<") = XErr) as -> by done. unfold raw_token. change (is_byte 60 (byte 60)) with true. change (B "/" ++ ?x) with ("/"%char :: x). cbn iota beta.
    change (is_byte 47 "/"%char) with true. cbn iota. change (B "<") with ["<"%char]. rewrite xname_white by done. cbn [xbind]. rewrite skip_white by done. done.
  - apply (K (de ++ p ++ B "<" ++ n ++ a ++ w1 ++ B "/")); [by rewrite <- !app_assoc|].
    assert (E1 : eats_lt st0 (de ++ p) st0) by (eapply eats_lt_cat; [by apply eats_decl|by apply eats_prolog]).
    destruct (eats_lt_unmarshal _ _ (n ++ a ++ w1 ++ B "/" ++ B "<") E1) as (k & Hk & E).
    rewrite <- !app_assoc in E. rewrite <- !app_assoc. etransitivity; [exact E|]. destruct k as [|k]; [lia|]. rewrite xloop_S.
    enough (raw_token (byte 60 :: n ++ a ++ w1 ++ B "/" ++ B "<") = XErr) as -> by done.
    destruct (name_head n Hn) as (c & n' & En & _ & H47 & _ & H63 & H33). unfold raw_token. change (is_byte 60 (byte 60)) with true. cbn iota.
    assert (Hname' : xname (n ++ a ++ w1 ++ B "/" ++ B "<") = XOk (n, a ++ w1 ++ B "/" ++ B "<")).
    { destruct Ha as [|v1 kk v2 v3 q ss v al' r' Hv1 Hne Hkk _ _ _ _ _ _ _]; [by apply (xname_white n w1 "/"%char)|].
      destruct v1 as [|y v1]; [done|]. inversion Hv1; subst y. rewrite <- !app_assoc. cbn [app]. apply xname_ok; [done|]. by apply white_not_name. }
    rewrite Hname'. rewrite En at 1. cbn [app]. rewrite H47, H63, H33. cbn [xbind]. pose proof (attrs_long _ _ Ha) as Hl.
    replace (S (length (a ++ w1 ++ B "/" ++ B "<"))) with (length al + S (length (a ++ w1 ++ B "/" ++ B "<") - length al))%nat by (rewrite !app_length; lia).
    rewrite (xattrs_run al a Ha) by (by destruct w1). cbn [xattrs]. rewrite skip_white by done. done.
Qed.

(** ** Loading *)
Lemma rejected (parse_tag : bytes -> bytes) decode l s : faithful decode -> unmarshal s = XErr -> load_xml parse_tag decode l s = (l, false).
Proof. intros Hf H. unfold load_xml. specialize (Hf s). rewrite H in Hf. by rewrite Hf. Qed.
Lemma load_mismatched (parse_tag : bytes -> bytes) decode l n ns s r u m w rest : faithful decode -> opens (n :: ns) s -> inner r u -> xml_name m -> white w -> m <> n ->
  load_xml parse_tag decode l (s ++ r ++ B "</" ++ m ++ w ++ B ">" ++ rest) = (l, false).
Proof. intros Hf Ho Hr Hm Hw Hne. apply rejected; [done|]. by eapply mismatched. Qed.
Lemma load_unclosed (parse_tag : bytes -> bytes) decode l n ns s r u : faithful decode -> opens (n :: ns) s -> inner r u ->
  load_xml parse_tag decode l (s ++ r) = (l, false).
Proof. intros Hf Ho Hr. apply rejected; [done|]. by eapply unclosed. Qed.
Lemma load_truncated (parse_tag : bytes -> bytes) decode l n s x d : faithful decode -> document n (s ++ x) d -> x <> [] ->
  load_xml parse_tag decode l s = (l, false).
Proof. intros Hf Hd Hx. apply rejected; [done|]. by eapply truncated. Qed.

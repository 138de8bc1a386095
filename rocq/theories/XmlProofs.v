(** * Texts, attributes and CDATA sections as the reader sees them. *)
From Verif Require Import GoBase GoStrings GoStringsProofs LangModel XmlModel XmlSpec.
Local Open Scope Z_scope.
Ltac Zify.zify_post_hook ::= Z.to_euclidean_division_equations.

Lemma ord_range c : 0 <= ord c < 256.
Proof. unfold ord. pose proof (N_ascii_bounded c). lia. Qed.
Lemma ord_inj c d : ord c = ord d -> c = d.
Proof. unfold ord. intros H. rewrite <- (ascii_N_embedding c), <- (ascii_N_embedding d). f_equal. lia. Qed.
Lemma ord_chr z : 0 <= z < 256 -> ord (chr_of z) = z.
Proof. intros H. unfold ord, chr_of. rewrite N_ascii_embedding by lia. lia. Qed.
Lemma chr_ord c : chr_of (ord c) = c.
Proof. unfold chr_of, ord. rewrite N2Z.id. apply ascii_N_embedding. Qed.
Lemma is_byte_true n c : is_byte n c = true <-> c = chr_of n /\ 0 <= n < 256.
Proof.
  unfold is_byte. rewrite Z.eqb_eq. split.
  - intros <-. rewrite chr_ord. split; [done|apply ord_range].
  - intros [-> ?]. by apply ord_chr.
Qed.
Lemma is_byte_false n c : is_byte n c = false <-> ord c <> n.
Proof. unfold is_byte. apply Z.eqb_neq. Qed.

(** ** legal is XML characters in UTF-8 *)
Ltac bdec := repeat match goal with
  | H : _ && _ = true |- _ => apply andb_prop in H; destruct H
  | H : _ || _ = true |- _ => apply orb_prop in H; destruct H
  | H : negb _ = true |- _ => apply negb_true_iff in H
  | H : Z.leb _ _ = true |- _ => apply Z.leb_le in H
  | H : Z.leb _ _ = false |- _ => apply Z.leb_gt in H
  | H : Z.ltb _ _ = true |- _ => apply Z.ltb_lt in H
  | H : Z.ltb _ _ = false |- _ => apply Z.ltb_ge in H
  | H : Z.eqb _ _ = true |- _ => apply Z.eqb_eq in H
  | H : Z.eqb _ _ = false |- _ => apply Z.eqb_neq in H
  | H : in_range _ _ _ = true |- _ => unfold in_range in H
  | H : is_byte _ _ = true |- _ => unfold is_byte in H
  | H : is_byte _ _ = false |- _ => unfold is_byte in H
  | H : cont _ = true |- _ => unfold cont in H
  end.
(** One character: [Some n] with the rest. *)
Lemma legal_cons s : legal s = true -> s = [] \/ exists n s', xml_char n /\ s = utf8 n ++ s' /\ legal s' = true /\ (length s' < length s)%nat.
Proof.
  destruct s as [|a s1]; [by left|]. right. simpl in H. pose proof (ord_range a) as Ra.
  destruct (ord a <? 128) eqn:E1.
  { bdec; exists (ord a), s1; (split; [unfold xml_char; lia|]); (split; [|split; [done|simpl; lia]]);
      unfold utf8; (rewrite (proj2 (Z.ltb_lt _ _)) by lia); by rewrite chr_ord. }
  destruct s1 as [|b s2]; [done|]. pose proof (ord_range b) as Rb.
  destruct (in_range 194 223 a) eqn:E2.
  { bdec. exists (64 * (ord a - 192) + (ord b - 128)), s2. (split; [unfold xml_char; lia|]); (split; [|split; [done|simpl; lia]]).
    unfold utf8. rewrite (proj2 (Z.ltb_ge _ _)) by lia. rewrite (proj2 (Z.ltb_lt _ _)) by lia.
    assert (Ha : (64 * (ord a - 192) + (ord b - 128)) / 64 = ord a - 192) by lia.
    assert (Hb : (64 * (ord a - 192) + (ord b - 128)) mod 64 = ord b - 128) by lia.
    rewrite Ha, Hb. replace (192 + (ord a - 192)) with (ord a) by lia. replace (128 + (ord b - 128)) with (ord b) by lia.
    by rewrite !chr_ord. }
  destruct s2 as [|c s3]; [done|]. pose proof (ord_range c) as Rc.
  destruct (in_range 224 239 a) eqn:E3.
  { apply andb_prop in H as [H Hl]. apply andb_prop in H as [H Hf]. apply andb_prop in H as [Hb Hc].
    assert (Kb : 128 <= ord b <= 191 /\ (ord a = 224 -> 160 <= ord b) /\ (ord a = 237 -> ord b <= 159)).
    { destruct (is_byte 224 a) eqn:?; [bdec; lia|]. destruct (is_byte 237 a) eqn:?; bdec; lia. }
    assert (Kf : ord a = 239 -> ord b = 191 -> ord c < 190).
    { intros F1 F2. unfold is_byte in Hf. rewrite F1, F2 in Hf. simpl in Hf. bdec. lia. }
    clear Hb Hf E1 E2. bdec.
    set (n := 4096 * (ord a - 224) + 64 * (ord b - 128) + (ord c - 128)).
    assert (N1 : n / 4096 = ord a - 224) by (unfold n; lia).
    assert (N2 : n / 64 mod 64 = ord b - 128) by (unfold n; lia).
    assert (N3 : n mod 64 = ord c - 128) by (unfold n; lia).
    assert (N4 : 2048 <= n <= 55295 \/ 57344 <= n <= 65533) by (unfold n; lia).
    exists n, s3. (split; [unfold xml_char; lia|]); (split; [|split; [done|simpl; lia]]).
    unfold utf8. rewrite (proj2 (Z.ltb_ge n 128)) by lia. rewrite (proj2 (Z.ltb_ge n 2048)) by lia.
    replace ((55296 <=? n) && (n <? 57344)) with false.
    2:{ symmetry. apply andb_false_iff. destruct N4; [left; apply Z.leb_gt; lia|right; apply Z.ltb_ge; lia]. }
    rewrite (proj2 (Z.ltb_lt n 65536)) by lia. rewrite N1, N2, N3.
    replace (224 + (ord a - 224)) with (ord a) by lia. replace (128 + (ord b - 128)) with (ord b) by lia.
    replace (128 + (ord c - 128)) with (ord c) by lia. by rewrite !chr_ord. }
  destruct s3 as [|d s4]; [done|]. pose proof (ord_range d) as Rd.
  apply andb_prop in H as [H Hl]. apply andb_prop in H as [H Hd]. apply andb_prop in H as [H Hc]. apply andb_prop in H as [Ha Hb].
  assert (Kb : 128 <= ord b <= 191 /\ (ord a = 240 -> 144 <= ord b) /\ (ord a = 244 -> ord b <= 143)).
  { destruct (is_byte 240 a) eqn:?; [bdec; lia|]. destruct (is_byte 244 a) eqn:?; bdec; lia. }
  clear Hb E1 E2 E3. bdec.
  set (n := 262144 * (ord a - 240) + 4096 * (ord b - 128) + 64 * (ord c - 128) + (ord d - 128)).
  assert (N0 : n / 262144 = ord a - 240) by (unfold n; lia).
  assert (N1 : n / 4096 mod 64 = ord b - 128) by (unfold n; lia).
  assert (N2 : n / 64 mod 64 = ord c - 128) by (unfold n; lia).
  assert (N3 : n mod 64 = ord d - 128) by (unfold n; lia).
  assert (N4 : 65536 <= n <= 1114111) by (unfold n; lia).
  exists n, s4. (split; [unfold xml_char; lia|]); (split; [|split; [done|simpl; lia]]).
  unfold utf8. rewrite (proj2 (Z.ltb_ge n 128)) by lia. rewrite (proj2 (Z.ltb_ge n 2048)) by lia.
  replace ((55296 <=? n) && (n <? 57344)) with false.
  2:{ symmetry. apply andb_false_iff. right; apply Z.ltb_ge; lia. }
  rewrite (proj2 (Z.ltb_ge n 65536)) by lia. rewrite N0, N1, N2, N3.
  replace (240 + (ord a - 240)) with (ord a) by lia. replace (128 + (ord b - 128)) with (ord b) by lia.
  replace (128 + (ord c - 128)) with (ord c) by lia. replace (128 + (ord d - 128)) with (ord d) by lia. by rewrite !chr_ord.
Qed.
Lemma legal_utf8 n s : xml_char n -> legal (utf8 n ++ s) = legal s.
Proof.
  intros Hn. unfold utf8.
  destruct (n <? 128) eqn:E1.
  { assert (K : 0 <= n < 128) by (bdec; unfold xml_char in Hn; lia).
    cbn [app legal]. unfold is_byte. rewrite ord_chr by lia. rewrite E1.
    replace (_ || (32 <=? n)) with true; [done|]. symmetry.
    unfold xml_char in Hn. destruct (Z.leb_spec 32 n); [by rewrite orb_true_r|].
    rewrite orb_false_r. apply orb_true_iff. rewrite orb_true_iff. rewrite !Z.eqb_eq. lia. }
  apply Z.ltb_ge in E1. destruct (n <? 2048) eqn:E2.
  { apply Z.ltb_lt in E2. cbn [app legal]. unfold in_range, cont, is_byte. rewrite !ord_chr by lia.
    rewrite (proj2 (Z.ltb_ge _ _)) by lia. unfold in_range. rewrite !ord_chr by lia.
    repeat (rewrite (proj2 (Z.leb_le _ _)) by lia). done. }
  apply Z.ltb_ge in E2.
  replace ((55296 <=? n) && (n <? 57344)) with false.
  2:{ symmetry. apply andb_false_iff. unfold xml_char in Hn. destruct (Z.leb_spec 55296 n); [right; apply Z.ltb_ge; lia|by left]. }
  destruct (n <? 65536) eqn:E3.
  { apply Z.ltb_lt in E3. unfold xml_char in Hn.
    assert (D : n = 4096 * (n / 4096) + 64 * (n / 64 mod 64) + n mod 64) by lia.
    set (x := n / 4096) in *. set (y := n / 64 mod 64) in *. set (z := n mod 64) in *.
    assert (0 <= x < 16) by (unfold x; lia). assert (0 <= y < 64) by (unfold y; lia). assert (0 <= z < 64) by (unfold z; lia).
    clearbody x y z. cbn [app legal]. unfold in_range, cont, is_byte, in_range. rewrite !ord_chr by lia.
    rewrite (proj2 (Z.ltb_ge _ _)) by lia.
    rewrite (proj2 (Z.leb_gt (224 + x) 223)) by lia. rewrite andb_false_r.
    rewrite (proj2 (Z.leb_le 224 (224 + x))) by lia. rewrite (proj2 (Z.leb_le (224 + x) 239)) by lia. cbn [andb].
    rewrite (proj2 (Z.leb_le 128 (128 + z))) by lia. rewrite (proj2 (Z.leb_le (128 + z) 191)) by lia.
    rewrite (proj2 (Z.leb_le 128 (128 + y))) by lia. rewrite (proj2 (Z.leb_le (128 + y) 191)) by lia.
    assert (Q : (if 224 + x =? 224 then (160 <=? 128 + y) && true else if 224 + x =? 237 then true && (128 + y <=? 159) else true && true) = true).
    { destruct (Z.eqb_spec (224 + x) 224); [rewrite andb_true_r; apply Z.leb_le; lia|].
      destruct (Z.eqb_spec (224 + x) 237); [apply Z.leb_le; lia|done]. }
    rewrite Q. cbn [andb].
    assert (Q2 : (224 + x =? 239) && (128 + y =? 191) && (190 <=? 128 + z) = false).
    { destruct (Z.eqb_spec (224 + x) 239); [|done]. destruct (Z.eqb_spec (128 + y) 191); [|done]. apply Z.leb_gt. lia. }
    rewrite Q2. done. }
  apply Z.ltb_ge in E3. unfold xml_char in Hn.
  assert (D : n = 262144 * (n / 262144) + 4096 * (n / 4096 mod 64) + 64 * (n / 64 mod 64) + n mod 64) by lia.
  set (w := n / 262144) in *. set (x := n / 4096 mod 64) in *. set (y := n / 64 mod 64) in *. set (z := n mod 64) in *.
  assert (0 <= w < 5) by (unfold w; lia). assert (0 <= x < 64) by (unfold x; lia). assert (0 <= y < 64) by (unfold y; lia). assert (0 <= z < 64) by (unfold z; lia).
  clearbody w x y z. cbn [app legal]. unfold in_range, cont, is_byte, in_range. rewrite !ord_chr by lia.
  rewrite (proj2 (Z.ltb_ge _ _)) by lia.
  rewrite (proj2 (Z.leb_gt (240 + w) 223)) by lia. rewrite (proj2 (Z.leb_gt (240 + w) 239)) by lia. rewrite !andb_false_r.
  rewrite (proj2 (Z.leb_le 240 (240 + w))) by lia. rewrite (proj2 (Z.leb_le (240 + w) 244)) by lia. cbn [andb].
  rewrite (proj2 (Z.leb_le 128 (128 + z))) by lia. rewrite (proj2 (Z.leb_le (128 + z) 191)) by lia.
  rewrite (proj2 (Z.leb_le 128 (128 + y))) by lia. rewrite (proj2 (Z.leb_le (128 + y) 191)) by lia.
  rewrite (proj2 (Z.leb_le 128 (128 + x))) by lia. rewrite (proj2 (Z.leb_le (128 + x) 191)) by lia.
  assert (Q : (if 240 + w =? 240 then (144 <=? 128 + x) && true else if 240 + w =? 244 then true && (128 + x <=? 143) else true && true) = true).
  { destruct (Z.eqb_spec (240 + w) 240); [rewrite andb_true_r; apply Z.leb_le; lia|].
    destruct (Z.eqb_spec (240 + w) 244); [apply Z.leb_le; lia|done]. }
  rewrite Q. done.
Qed.
Lemma legal_iff s : legal s = true <-> xml_chars s.
Proof.
  split.
  - remember (length s) as n eqn:En. revert s En. induction (lt_wf n) as [n _ IH]. intros s -> H.
    destruct (legal_cons s H) as [->|(c & s' & Hc & -> & Hl & Hlen)]; [by exists []|].
    destruct (IH _ Hlen s' eq_refl Hl) as (cs & Hcs & ->). exists (c :: cs). split; [by constructor|done].
  - intros (cs & Hcs & ->). induction Hcs as [|c cs Hc Hcs IH]; [done|]. cbn [map concat]. by rewrite legal_utf8.
Qed.

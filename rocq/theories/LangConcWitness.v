(** * Schedules of concurrent loads. *)
From Verif Require Import GoBase GoStrings LangModel LangConc LangConcSpec.

Definition text1 : bytes := B "a=1" ++ [lf] ++ B "b=1".
Definition text2 : bytes := B "a=2" ++ [lf] ++ B "b=2".
Definition mixed_acts : list lact :=
  [LCall 1 (KLoadString text1); LCall 2 (KLoadString text2); LGo 1; LGo 2; LGo 2; LGo 1; LGo 1; LGo 2; LReturn 1; LReturn 2].
Lemma loads_mix : forall parse_tag decode, exists data1 data2 acts g h,
  lcexec parse_tag decode (linit (new_lang [] [])) acts = Some (g, h) /\ all_idle g /\
  all_calls (fun c => c = KLoadString data1 \/ c = KLoadString data2) h /\
  l_entries (lc_lang g) <> l_entries (load_string (load_string (new_lang [] []) data1).1 data2).1 /\
  l_entries (lc_lang g) <> l_entries (load_string (load_string (new_lang [] []) data2).1 data1).1.
Proof.
  intros parse_tag decode. exists text1, text2, mixed_acts. eexists _, _. split; [reflexivity|]. split_and!.
  - intros t. cbn [lc_thr]. unfold lupd. by repeat case_decide.
  - intros t c Hin. repeat (apply elem_of_cons in Hin as [Hin|Hin]; [first [discriminate|injection Hin as -> ->; auto]|]).
    by apply elem_of_nil in Hin.
  - intros E. apply (f_equal (lookup (B "b"))) in E. vm_compute in E. discriminate.
  - intros E. apply (f_equal (lookup (B "a"))) in E. vm_compute in E. discriminate.
Qed.
(** A reader sees the first half of a load. *)
Definition half_acts : list lact :=
  [LCall 1 (KLoadString text1); LGo 1; LCall 2 KGetEntries; LGo 2; LReturn 2; LGo 1; LGo 1; LReturn 1].
Lemma load_half_seen : forall parse_tag decode, exists l0 data acts g h t m,
  lcexec parse_tag decode (linit l0) acts = Some (g, h) /\ all_calls (fun c => c = KLoadString data \/ c = KGetEntries) h /\
  ERet t KGetEntries (LTable m) ∈ h /\ m <> l_entries l0 /\ m <> l_entries (load_string l0 data).1.
Proof.
  intros parse_tag decode. exists (load_string (new_lang [] []) text2).1, text1, half_acts. eexists _, _, 2%nat, _. split; [reflexivity|]. split_and!.
  - intros t c Hin. repeat (apply elem_of_cons in Hin as [Hin|Hin]; [first [discriminate|injection Hin as -> ->; auto]|]).
    by apply elem_of_nil in Hin.
  - do 4 right. left.
  - intros E. apply (f_equal (lookup (B "a"))) in E. vm_compute in E. discriminate.
  - intros E. apply (f_equal (lookup (B "b"))) in E. vm_compute in E. discriminate.
Qed.

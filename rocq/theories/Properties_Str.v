(** C25-C27, C47: strings and bytes search, cut, pad and compare as in Python.
    [abc] and the other literals below are code points. *)
From Coq Require Import ZArith List Bool Lia.
From Verif Require Import Py PySeq_Spec Str_Model Str_Spec Str_Proofs Str_Proofs2 Str_Proofs3 Str_Proofs4.
Import ListNotations.
Open Scope Z_scope.

Definition abcab : str := [97; 98; 99; 97; 98].
(** ASCII whitespace and line boundaries, for the examples *)
Definition space (c : Z) : bool := (c =? 32) || ((9 <=? c) && (c <=? 13)).
Definition newline (c : Z) : bool := (10 <=? c) && (c <=? 13).

(** *** C25 *)
(** The full property is the statement below without [bound_ok], which excludes
    bounds below -len(s): there the code looks in the wrong window (refuted). *)
Theorem C25_find_partial s sub a b : bound_ok (len s) a -> bound_ok (len s) b ->
  is_find s sub (win_start (len s) a) (win_end (len s) b) (m_find s sub a b)
  /\ is_rfind s sub (win_start (len s) a) (win_end (len s) b) (m_rfind s sub a b)
  /\ is_index (is_find s sub (win_start (len s) a) (win_end (len s) b)) (m_index s sub a b)
  /\ is_index (is_rfind s sub (win_start (len s) a) (win_end (len s) b)) (m_rindex s sub a b).
Proof. intros A B. exact (conj (find_spec s sub a b A B) (conj (rfind_spec s sub a b A B) (conj (index_spec s sub a b A B) (rindex_spec s sub a b A B)))). Qed.
Example C25_find_witness :
  bound_ok (len abcab) (Some (-4)) /\ m_find abcab [97; 98] (Some (-4)) None = 3
  /\ m_rfind abcab [98] None (Some (-1)) = 1 /\ m_index abcab [99] (Some 3) None = Err ValueError.
Proof. vm_compute. repeat split; discriminate. Qed.
Print Assumptions C25_find_partial.
(** The empty substring is found at the ends of any window that starts at the start of the
    string, whatever the bounds. *)
Theorem C25_find_empty_partial s a b : win_start (len s) a = 0 ->
  is_find s [] 0 (win_end (len s) b) (m_find s [] a b) /\ is_rfind s [] 0 (win_end (len s) b) (m_rfind s [] a b).
Proof. intros H. exact (conj (find_empty s a b false H) (find_empty s a b true H)). Qed.
Example C25_find_empty_witness : win_start (len abcab) (Some (-9)) = 0 /\ m_rfind abcab [] (Some (-9)) (Some (-7)) = 0
  /\ m_rfind abcab [] None (Some (-1)) = 4.
Proof. repeat split. Qed.
Print Assumptions C25_find_empty_partial.

Theorem C25_find_refuted :
  ~ is_find [97; 98; 99] [97] (win_start 3 (Some (-5))) (win_end 3 None) (m_find [97; 98; 99] [97] (Some (-5)) None)
  /\ ~ is_find [97; 98; 99] [97] (win_start 3 None) (win_end 3 (Some (-5))) (m_find [97; 98; 99] [97] None (Some (-5))).
Proof.
  split.
  - change (m_find [97; 98; 99] [97] (Some (-5)) None) with (-1). change (win_start 3 (Some (-5))) with 0. cbn [win_end].
    intros [((O & ? & _) & _)|(_ & N)]; [lia|]. apply (N 0). split; [exists [], [98; 99]; auto|]. cbn. lia.
  - change (m_find [97; 98; 99] [97] None (Some (-5))) with 0. change (win_end 3 (Some (-5))) with 0. cbn [win_start].
    intros [((_ & _ & K) & _)|(K & _)]; [cbn in K|]; lia.
Qed.
Print Assumptions C25_find_refuted.

Theorem C25_startswith s prefixes a b :
  m_startswith s prefixes a b = true <->
  exists p, In p prefixes /\ occurs_in s p (win_start (len s) a) (win_end (len s) b) (win_start (len s) a).
Proof. exact (startswith_correct s prefixes a b). Qed.
Theorem C25_endswith s suffixes a b :
  m_endswith s suffixes a b = true <->
  exists p, In p suffixes /\ occurs_in s p (win_start (len s) a) (win_end (len s) b) (win_end (len s) b - len p).
Proof. exact (endswith_correct s suffixes a b). Qed.
Example C25_startswith_witness :
  m_startswith abcab [[120]; [98; 99]] (Some (-4)) None = true /\ m_endswith abcab [[99]] None (Some 3) = true
  /\ m_startswith abcab [[]] (Some 6) None = false /\ m_endswith abcab [[]] (Some 3) (Some 2) = false.
Proof. now vm_compute. Qed.
Print Assumptions C25_startswith.
Print Assumptions C25_endswith.

Theorem C25_contains s sub : m_contains s sub = true <-> exists p q, s = p ++ sub ++ q.
Proof.
  rewrite contains_correct. split.
  - intros (i & p & q & E & _). eauto.
  - intros (p & q & E). exists (len p), p, q. auto.
Qed.
Example C25_contains_witness : m_contains abcab [99; 97] = true /\ m_contains abcab [98; 97] = false.
Proof. now vm_compute. Qed.
Print Assumptions C25_contains.

(** Excluded: the empty string counted in an empty window that starts after it ends,
    for which CPython says 0. *)
Theorem C25_count_partial s sub a b :
  (sub = [] -> win_start (len s) a <= win_end (len s) b) ->
  exists n, m_count s sub a b = Ok n /\ is_count s sub (win_start (len s) a) (win_end (len s) b) n.
Proof. intro H. apply count_correct. intro E. apply H. now apply slen_0. Qed.
Example C25_count_witness :
  m_count [97; 97; 97; 97; 97] [97; 97] None None = Ok 2 /\ m_count abcab [] (Some 2) None = Ok 4
  /\ m_count abcab [98] (Some 2) None = Ok 1.
Proof. now vm_compute. Qed.
Print Assumptions C25_count_partial.
Theorem C25_count_refuted :
  exists s a n, m_count s [] a None = Ok n /\ ~ is_count s [] (win_start (len s) a) (win_end (len s) None) n.
Proof. exists [97], (Some 3), 1. split; [reflexivity|]. vm_compute. discriminate. Qed.
Print Assumptions C25_count_refuted.

(** *** C26 *)
Theorem C26_partition s sep :
  match m_partition s sep with
  | Err e => e = ValueError /\ sep = []
  | Ok (p, m, q) => sep <> [] /\ (m = sep /\ first_occ s sep p q \/ p = s /\ m = [] /\ q = [] /\ absent s sep)
  end.
Proof. exact (partition_correct s sep). Qed.
Theorem C26_rpartition s sep :
  match m_rpartition s sep with
  | Err e => e = ValueError /\ sep = []
  | Ok (p, m, q) => sep <> [] /\ (m = sep /\ last_occ s sep p q \/ p = [] /\ m = [] /\ q = s /\ absent s sep)
  end.
Proof. exact (rpartition_correct s sep). Qed.
Example C26_partition_witness :
  m_partition abcab [98] = Ok ([97], [98], [99; 97; 98]) /\ m_rpartition abcab [98] = Ok ([97; 98; 99; 97], [98], []).
Proof. now vm_compute. Qed.
Print Assumptions C26_partition.
Print Assumptions C26_rpartition.

Theorem C26_replace s old new n : exists r, m_replace s old new n = Ok r /\ is_replace s old new n r.
Proof. exact (replace_correct s old new n). Qed.
Example C26_replace_witness :
  m_replace abcab [97; 98] [120] (-1) = Ok [120; 99; 120] /\ m_replace abcab [97] [] 1 = Ok [98; 99; 97; 98]
  /\ m_replace [97; 98] [] [45] (-1) = Ok [45; 97; 45; 98; 45] /\ m_replace [97; 98] [] [45] 2 = Ok [45; 97; 45; 98].
Proof. now vm_compute. Qed.
Print Assumptions C26_replace.

Theorem C26_split s sep n :
  match m_split s sep n with
  | Err e => e = ValueError /\ sep = []
  | Ok l => sep <> [] /\ splits sep n s l /\ join sep l = s
            /\ (0 <= n -> Z.of_nat (length l) <= n + 1) /\ (n < 0 -> Forall (fun x => absent x sep) l)
  end.
Proof.
  pose proof (split_correct s sep n) as H. destruct (m_split s sep n); auto. destruct H as (N & S).
  split; [auto|]. split; [auto|]. split; [eapply splits_join; eauto|]. split; [eapply splits_count; eauto|eapply splits_absent; eauto].
Qed.
Theorem C26_rsplit s sep n :
  match m_rsplit s sep n with
  | Err e => e = ValueError /\ sep = []
  | Ok l => sep <> [] /\ rsplits sep n s l /\ join sep l = s
            /\ (0 <= n -> Z.of_nat (length l) <= n + 1) /\ (n < 0 -> Forall (fun x => absent x sep) l)
  end.
Proof.
  pose proof (rsplit_correct s sep n) as H. destruct (m_rsplit s sep n); auto. destruct H as (N & S).
  split; [auto|]. split; [auto|]. split; [eapply rsplits_join; eauto|]. split; [eapply rsplits_count; eauto|eapply rsplits_absent; eauto].
Qed.
(** The relation used above has one answer, so it pins the result down. *)
Theorem C26_split_unique sep n s l l' : splits sep n s l -> splits sep n s l' -> l = l'.
Proof. intros H. exact (splits_unique sep n s l H l'). Qed.
Example C26_split_witness :
  m_split [97; 97; 97] [97; 97] (-1) = Ok [[]; [97]] /\ m_rsplit [97; 97; 97] [97; 97] (-1) = Ok [[97]; []]
  /\ m_split abcab [98] 1 = Ok [[97]; [99; 97; 98]] /\ m_rsplit abcab [98] 1 = Ok [[97; 98; 99; 97]; []].
Proof. now vm_compute. Qed.
Print Assumptions C26_split.
Print Assumptions C26_rsplit.
Print Assumptions C26_split_unique.

(** split() on whitespace. The full property is [fields f n s l] without condition; the
    code drops trailing whitespace that CPython keeps when a positive limit is reached. *)
Theorem C26_split_ws_partial (f : Z -> bool) s n : exists l, m_split_ws f s n = Ok l /\
  (n <= 0 \/ last_not f s \/ Z.of_nat (length l) <= n -> fields f n s l).
Proof. exact (split_ws_correct f s n). Qed.
Example C26_split_ws_witness :
  m_split_ws space [32; 97; 9; 10; 98; 32; 99; 32] (-1) = Ok [[97]; [98]; [99]]
  /\ m_split_ws space [32; 97; 9; 10; 98; 32; 99] 1 = Ok [[97]; [98; 32; 99]]
  /\ m_split_ws space [32; 97; 32] 0 = Ok [[97; 32]].
Proof. now vm_compute. Qed.
Print Assumptions C26_split_ws_partial.
Theorem C26_split_ws_refuted : exists s n l,
  m_split_ws space s n = Ok l /\ ~ fields space n s l
  /\ fields space n s [[97]; [98; 32; 99; 32]] /\ l = [[97]; [98; 32; 99]].
Proof.
  exists [97; 32; 98; 32; 99; 32], 1, [[97]; [98; 32; 99]]. split; [reflexivity|]. split; [|split; [|reflexivity]].
  - intro H. inversion H as [| |n w t r l N A T NS R F E1 E2]; subst.
    inversion F as [|w2 r2 A2 N2 H2|n2 w2 t2 r2 l2 N2]; subst; [|exfalso; lia].
    apply (f_equal (@rev Z)) in E2. rewrite !rev_app_distr in E2. cbn in E2. discriminate.
  - apply (fi_word space 1 [] [97] [32; 98; 32; 99; 32]).
    + discriminate.
    + constructor.
    + discriminate.
    + repeat constructor.
    + right. exists 32, [98; 32; 99; 32]. auto.
    + apply (fi_rest space [32] [98; 32; 99; 32]); [repeat constructor|discriminate|reflexivity].
Qed.
Print Assumptions C26_split_ws_refuted.
(** rsplit() on whitespace, likewise with leading whitespace. *)
Theorem C26_rsplit_ws_partial (f : Z -> bool) s n : len s < 2 ^ 63 -> exists l, m_rsplit_ws f s n = Ok l /\
  (n <= 0 \/ head_not f s \/ Z.of_nat (length l) <= n -> rfields f n s l).
Proof. exact (rsplit_ws_correct f s n). Qed.
Example C26_rsplit_ws_witness :
  m_rsplit_ws space [32; 97; 9; 10; 98; 32; 99; 32] (-1) = Ok [[97]; [98]; [99]]
  /\ m_rsplit_ws space [97; 9; 10; 98; 32; 99; 32] 1 = Ok [[97; 9; 10; 98]; [99]]
  /\ m_rsplit_ws space [32; 97; 32] 0 = Ok [[32; 97]].
Proof. now vm_compute. Qed.
Print Assumptions C26_rsplit_ws_partial.
Theorem C26_rsplit_ws_refuted : exists s n l, m_rsplit_ws space s n = Ok l /\ ~ rfields space n s l.
Proof.
  exists [32; 97; 32; 98], 1, [[97]; [98]]. split; [reflexivity|].
  unfold rfields. cbn [rev map app]. intro H. inversion H as [| |n w t r l N A T NS R F E1 E2]; subst.
  inversion F as [|w2 r2 A2 N2 H2|n2 w2 t2 r2 l2 N2]; subst; [|exfalso; lia].
  apply (f_equal (@rev Z)) in E2. rewrite !rev_app_distr in E2. cbn in E2. discriminate.
Qed.
Print Assumptions C26_rsplit_ws_refuted.

Theorem C26_join sep l : m_join sep l = join sep l.
Proof. exact (join_correct sep l). Qed.
Theorem C26_removeprefix s p :
  (exists q, s = p ++ q /\ m_removeprefix s p = q) \/ ((forall q, s <> p ++ q) /\ m_removeprefix s p = s).
Proof. exact (removeprefix_correct s p). Qed.
Theorem C26_removesuffix s p :
  (exists q, s = q ++ p /\ m_removesuffix s p = q) \/ ((forall q, s <> q ++ p) /\ m_removesuffix s p = s).
Proof. exact (removesuffix_correct s p). Qed.
Example C26_join_witness :
  m_join [44; 32] [[97]; []; [98]] = [97; 44; 32; 44; 32; 98]
  /\ m_removeprefix abcab [97; 98] = [99; 97; 98] /\ m_removesuffix abcab [97; 98] = [97; 98; 99]
  /\ m_removesuffix abcab [] = abcab /\ m_removeprefix abcab [98] = abcab.
Proof. now vm_compute. Qed.
Print Assumptions C26_join.
Print Assumptions C26_removeprefix.
Print Assumptions C26_removesuffix.

(** *** C27 *)
Theorem C27_pad s w c :
  m_ljust s w c = py_ljust s w c /\ m_rjust s w c = py_rjust s w c /\ m_center s w c = py_center s w c
  /\ m_zfill s w = py_zfill s w.
Proof. exact (conj (ljust_correct s w c) (conj (rjust_correct s w c) (conj (center_correct s w c) (zfill_correct s w)))). Qed.
Example C27_pad_witness :
  m_center [97; 98] 5 42 = [42; 42; 97; 98; 42] /\ m_center [97] 4 42 = [42; 97; 42; 42]
  /\ m_zfill [45; 55] 4 = [45; 48; 48; 55] /\ m_ljust [97] 3 42 = [97; 42; 42] /\ m_rjust [97] (-3) 42 = [97].
Proof. now vm_compute. Qed.
Print Assumptions C27_pad.

Theorem C27_strip (f : Z -> bool) s :
  is_lstrip f s (m_lstrip f s)
  /\ (exists r, m_rstrip f s = Ok r /\ is_rstrip f s r) /\ (exists r, m_strip f s = Ok r /\ is_strip f s r).
Proof. exact (conj (lstrip_correct f s) (conj (rstrip_correct f s) (strip_correct f s))). Qed.
Example C27_strip_witness :
  m_lstrip space [32; 97; 32; 98; 32] = [97; 32; 98; 32] /\ m_rstrip space [32; 97; 32; 98; 32] = Ok [32; 97; 32; 98]
  /\ m_strip space [32; 97; 32; 98; 32; 10] = Ok [97; 32; 98] /\ m_strip space [32; 32] = Ok [].
Proof. now vm_compute. Qed.
Print Assumptions C27_strip.

Theorem C27_splitlines (isnl : Z -> bool) s keepends : isnl 13 = true ->
  exists l, m_splitlines isnl s keepends = Ok l /\ lines isnl keepends s l
            /\ (keepends = true -> concat l = s).
Proof.
  intro N. destruct (splitlines_correct isnl s keepends N) as (l & E & L). exists l. repeat split; auto.
  intros ->. eapply lines_keepends; eauto.
Qed.
Example C27_splitlines_witness :
  newline 13 = true
  /\ m_splitlines newline [97; 13; 10; 10; 98; 13] false = Ok [[97]; []; [98]]
  /\ m_splitlines newline [97; 13; 10; 10; 98] true = Ok [[97; 13; 10]; [10]; [98]].
Proof. now vm_compute. Qed.
Print Assumptions C27_splitlines.

(** The full property has no [tabs_aligned]: the code puts [tabsize] spaces for every
    tab, which is only right at a column that is a multiple of the tab size. *)
Theorem C27_expandtabs_partial s k : tabs_aligned k 0 s -> m_expandtabs s k = Ok (expand k 0 s).
Proof. exact (expandtabs_partial s k). Qed.
Example C27_expandtabs_witness :
  tabs_aligned 2 0 [9; 97; 98; 9; 10; 9] /\ m_expandtabs [9; 97; 98; 9; 10; 9] 2 = Ok [32; 32; 97; 98; 32; 32; 10; 32; 32].
Proof. vm_compute. repeat split; congruence. Qed.
Print Assumptions C27_expandtabs_partial.
Theorem C27_expandtabs_refuted : exists s k, m_expandtabs s k <> Ok (expand k 0 s).
Proof. exists [97; 9], 4. vm_compute. discriminate. Qed.
Print Assumptions C27_expandtabs_refuted.

(** *** C47: string comparison is lexicographic by code point *)
Theorem C47_order o a b : exists v, m_cmp o a b = Ok v /\
  (v = true <-> match o with
                | OLt => lex_lt a b
                | OLe => a = b \/ lex_lt a b
                | OGt => lex_lt b a
                | OGe => a = b \/ lex_lt b a
                end).
Proof. exact (cmp_correct o a b). Qed.
Example C47_order_witness :
  m_cmp OLt [97; 98] [97; 98; 97] = Ok true /\ m_cmp OGe [98] [97; 98; 97] = Ok true /\ m_cmp OGt [97] [97] = Ok false.
Proof. now vm_compute. Qed.
Print Assumptions C47_order.

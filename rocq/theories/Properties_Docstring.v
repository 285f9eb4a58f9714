(** Contracts written in docstrings. *)
From Coq Require Import ZArith List Bool Lia.
From Verif Require Import Docstring_Model Docstring_Spec Docstring_Proofs.
Import ListNotations.
Open Scope Z_scope.

(** Characters for the examples: space and newline; letters, digits and underscore *)
Definition ws (c : Z) : bool := (c =? 32) || (c =? 10).
Definition wd (c : Z) : bool := ((97 <=? c) && (c <=? 122)) || ((65 <=? c) && (c <=? 90)) || ((48 <=? c) && (c <=? 57)) || (c =? 95).
Lemma usual_example : usual ws wd.
Proof.
  repeat split. intros [] c H; cbn in H;
  repeat match goal with H : _ \/ _ |- _ => destruct H | H : False |- _ => contradiction end; subst; reflexivity.
Qed.
Definition sp (n : nat) : str := repeat 32 n.
(** "Text.", "  pre: x", "  post[a]: # c", "      y", "    # c", "", "    pre: z ", "  More" *)
Definition sample : list item :=
  [Prose [84; 101; 120; 116; 46; 10];
   Inline (mkHead (sp 2) false Pre None false) [32] [120] [10];
   Block (mkHead (sp 2) false Post (Some [97]) false) [32] [35; 32; 99] [10]
     [BExpr (sp 6) [121] [10]; BComment (sp 4) [32; 99] [10]; BBlank [10]; BExpr (sp 4) [112; 114; 101; 58; 32; 122] [32; 10]];
   Prose [32; 32; 77; 111; 114; 101]].
Lemma sample_good : good ws wd [Pre; Post] sample.
Proof.
  split; [|split].
  - constructor; [apply (no_header_check ws wd usual_example); reflexivity|].
    constructor; [|constructor; [|constructor; [apply (no_header_check ws wd usual_example); reflexivity|constructor]]].
    + repeat split; repeat constructor; discriminate.
    + split; [split; [repeat constructor|split; [cbn; auto|split; [reflexivity|repeat constructor]]]|].
      repeat split; repeat constructor; cbn; try lia; try discriminate; auto.
  - cbn. right. split; [intros B; inversion B; discriminate|]. split; [exact I|].
    right. split; [tauto|]. split; [exact I|]. right. split; [tauto|]. split; [exact I|].
    right. split; [|split; [vm_compute; discriminate|exact I]].
    intros B. inversion B as [|? ? ? B1]; subst. inversion B1 as [|? ? ? B2]; subst. inversion B2; discriminate.
  - cbn. lia.
Qed.

Theorem docstring_contracts_read_back : forall space word wanted n d,
  usual space word -> good space word wanted d ->
  parse_sections space word wanted (render n d) = mkParse [] (entries n d) (hd_error (names d)).
Proof. intros. now apply reads_back. Qed.
Example docstring_contracts_read_back_example :
  good ws wd [Pre; Post] sample /\
  map (fun x => fst x) (entries 10 sample) = [(Pre, 11); (Post, 13); (Post, 16)] /\
  parse_sections ws wd [Pre; Post] (render 10 sample) =
  mkParse [] [(Pre, 11, [120]); (Post, 13, [121]); (Post, 16, [112; 114; 101; 58; 32; 122])] (Some [97]).
Proof. split; [exact sample_good|]. split; reflexivity. Qed.
Print Assumptions docstring_contracts_read_back.

(** In the program, the opening quotes stand after the indentation of the first line.
    When that line is prose, or blank, or a contract on one line, nothing changes. *)
Theorem quoted_docstring_contracts_partial : forall space word wanted n i d,
  usual space word -> good space word wanted (i :: d) ->
  match i with Block _ _ _ _ _ => False | _ => True end ->
  parse_sections space word wanted (doc_lines space (quoted space (render n (i :: d)))) =
  mkParse [] (entries n (i :: d)) (hd_error (names (i :: d))).
Proof. intros. now apply reads_back_quoted. Qed.
Example quoted_docstring_contracts_example :
  sections (parse_sections ws wd [Pre; Post] (doc_lines ws (quoted ws (render 10 sample)))) = entries 10 sample.
Proof. reflexivity. Qed.
Print Assumptions quoted_docstring_contracts_partial.

(** When it is the header of an indented section, what follows the section, as much
    indented as the quotes, is taken for more of the section. *)
Theorem quoted_docstring_contracts_refuted : exists space word wanted n d,
  usual space word /\ good space word wanted d /\
  parse_sections space word wanted (doc_lines space (quoted space (render n d))) <>
  mkParse [] (entries n d) (hd_error (names d)).
Proof.
  exists ws, wd, [Pre; Post], 1,
    [Block (mkHead (sp 4) false Pre None false) [] [] [] [BExpr (sp 8) [120] []]; Prose (sp 4 ++ [77])].
  split; [exact usual_example|]. split; [|vm_compute; intros E; discriminate E].
  split; [|split].
  - constructor; [|constructor; [apply (no_header_check ws wd usual_example); reflexivity|constructor]].
    split; [split; [repeat constructor|split; [cbn; auto|exact I]]|].
    repeat split; repeat constructor; cbn; try lia; try discriminate; auto.
  - cbn. right. split; [tauto|]. split; [exact I|]. right. split; [|split; [vm_compute; discriminate|exact I]].
    intros B. repeat match goal with H : Docstring_Spec.blank _ _ |- _ => unfold Docstring_Spec.blank in H | H : Forall _ (_ :: _) |- _ => inversion H; subst; clear H end; discriminate.
  - cbn. lia.
Qed.
Print Assumptions quoted_docstring_contracts_refuted.

(** Names in brackets on another section than post, or on a second post, give a message
    for that line. *)
Theorem misplaced_brackets_are_reported : forall space word wanted n d m h b gap e trail more,
  usual space word -> good space word wanted d ->
  blank space (h_indent h) -> In (h_section h) wanted -> h_names h = Some b ->
  Forall (fun c => word c = true \/ space c = true \/ c = 44 \/ c = 46) b ->
  blank space gap -> blank space trail -> trimmed space e -> match e with [] => True | c :: _ => c <> 58 end ->
  match open_at_end space None d with Some i => blen (h_indent h) <= i | None => True end ->
  h_section h <> Post \/ names d <> [] ->
  In (m, match h_section h with Post => None | k => Some k end)
     (messages (parse_sections space word wanted (render n d ++ (m, head_text h ++ gap ++ e ++ trail) :: more))).
Proof. intros. eapply misplaced_names; eassumption. Qed.
Example misplaced_brackets_example :
  messages (parse_sections ws wd [Pre; Post]
    (render 10 sample ++ [(30, head_text (mkHead [] false Post (Some [98]) false) ++ [120]); (31, head_text (mkHead [] true Pre (Some [98]) true))]))
  = [(30, None); (31, Some Pre)].
Proof. reflexivity. Qed.
Print Assumptions misplaced_brackets_are_reported.

(** The names themselves: separated by commas, whitespace around them, the path after a
    dot left out. *)
Theorem bracket_names_read_back : forall space word l,
  usual space word -> Forall (good_name space) l -> mutable_args space (names_text l) = map n_name l.
Proof. intros. eapply names_read; eassumption. Qed.
Example bracket_names_example :
  mutable_args ws (names_text [mkName [] [97] None []; mkName [32] [98; 99] (Some [120]) [32]]) = [[97]; [98; 99]].
Proof. reflexivity. Qed.
Print Assumptions bracket_names_read_back.

(** Whatever the text, well formed or not: each expression is one of the text's own, on
    the line given, in a section asked for. *)
Theorem docstring_expressions_come_from_their_lines : forall space word wanted lines,
  usual space word -> Forall (from_line space wanted lines) (sections (parse_sections space word wanted lines)).
Proof. intros. now apply nothing_made_up. Qed.
Example docstring_expressions_example :
  sections (parse_sections ws wd [Inv] [(1, [105; 110; 118; 58]); (2, [32; 120]); (3, [32; 35]); (4, [121])]) = [(Inv, 2, [120])].
Proof. reflexivity. Qed.
Print Assumptions docstring_expressions_come_from_their_lines.

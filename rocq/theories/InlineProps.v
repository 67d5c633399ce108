(** C36: inline files, the part of the parser. *)
From Coq Require Import Ascii String.
From stdpp Require Import prelude gmap.
From RecordUpdate Require Import RecordSet.
From Verif Require Import Base Data Cmd Macro MacroProofs LineReader Preproc PreprocProps MkParse InlineSpec InlineProofs.
Import RecordSetNotations.
Local Open Scope N_scope.

(** Every command is split into one line and the names of its inline files, and in one way only. *)
Theorem C36_names s line names : inlineNames (length s) s = (line, names) <-> inlines s line names.
Proof.
  split; [|intros H; by apply inlines_compute].
  intros H. destruct (inlines_exist (length s) s) as (l' & n' & Hi); [done|].
  pose proof (inlines_compute _ _ _ Hi (length s)) as E. rewrite E in H by done. by injection H as <- <-.
Qed.
Example C36_names_ex : inlineNames 99 (s2q "link @<<a.rsp /x <<""b c.rsp"" <<") = (s2q "link @<< /x << <<", map s2q ["a.rsp"; "b c.rsp"; ""]%string).
Proof. by vm_compute. Qed.

(** A command whose inline files follow it in the makefile: the files have the names in the command and the
    texts behind it, with macros expanded and with CR LF at the end of each line; reading goes on behind the
    last text. *)
Theorem C36_command fs k (st : pp) (s : pst pp) line e lin names text l rest fuel :
  pp_back st = [] -> pp_files st <> [] -> s_rd s = withText st text ->
  let max := if s_ignore s then 4294967295 else 0 in
  let cmd := evaluateModifiers (Command e [] max (s_silent s) false) in
  expandMacros (ppTab st) false (trimmed line) = XOk e -> inlines (c_line cmd) lin names -> inlineTexts (ppTab st) text l rest ->
  length names = length l -> Forall (fun p => length (fst p) < fuel)%nat l ->
  exists files s', parseCommandLine (ppNext fs (S k)) ppTab fuel line false s = POk (Command lin files (c_max cmd) (c_silent cmd) (c_single cmd), s') /\
    s_rd s' = withText st rest /\ length files = length l /\
    forall i n p f, names !! i = Some n -> l !! i = Some p -> files !! i = Some f -> fileFor n p f.
Proof.
  intros Hb Hf Hs max cmd He Hi Ht Hl HF.
  destruct (inlineContents_text fs k st Hb Hf text l rest Ht fuel names s Hs Hl HF) as (files & s' & E & E1 & E2 & E3).
  exists files, s'. split; [|done]. unfold parseCommandLine. unfold expandL. rewrite Hs. change (ppTab (withText st text)) with (ppTab st). rewrite He. cbn [bindR].
  fold max. fold cmd. apply C36_names in Hi. rewrite Hi. rewrite E. cbn [bindR]. done.
Qed.
(** Lines without macros, directives and marks are taken as they are. *)
Definition plainLine (l : list N) : Prop :=
  10 ∉ l /\ 13 ∉ l /\ 36 ∉ l /\ ~ directive (l ++ [10]) /\ forall s, l <> [60; 60] ++ s.
Theorem C36_plain fs k (st : pp) (s : pst pp) line name ls o rest fuel :
  pp_back st = [] -> pp_files st <> [] -> 10 ∉ o -> 13 ∉ o -> 36 ∉ o -> Forall plainLine ls -> (length ls < fuel)%nat ->
  s_rd s = withText st (concat (map (fun l => l ++ [10]) ls) ++ [60; 60] ++ o ++ [10] ++ rest) ->
  let cmd := evaluateModifiers (Command (trimmed line) [] (if s_ignore s then 4294967295 else 0) (s_silent s) false) in
  36 ∉ trimmed line -> forall lin, inlines (c_line cmd) lin [name] ->
  exists f s', parseCommandLine (ppNext fs (S k)) ppTab fuel line false s = POk (Command lin [f] (c_max cmd) (c_silent cmd) (c_single cmd), s') /\
    s_rd s' = withText st rest /\ if_name f = name /\ if_content f = concat (map (fun l => l ++ [13; 10]) ls).
Proof.
  intros Hb Hf Ho1 Ho2 Ho3 HP Hlen Hs cmd Hd lin Hi.
  assert (HT : inlineText (ppTab st) (concat (map (fun l => l ++ [10]) ls) ++ [60; 60] ++ o ++ [10] ++ rest) (map (fun l => l ++ [10]) ls) o rest).
  { clear -HP Ho1 Ho2 Ho3. induction HP as [|l ls (H1 & H2 & H3 & H4 & H5) _ IH].
    - eapply it_end; [done| |].
      + intros E. apply Ho2. rewrite last_lookup in E. by eapply elem_of_list_lookup_2.
      + split_and!.
        * done.
        * apply expand_plain. rewrite !elem_of_app, !elem_of_cons. pose proof (not_elem_of_nil (A:=N) 36). naive_solver.
        * intros [H|(w & c & v & E & Ew & _)]; [done|]. destruct w as [|x w]; [done|]. cbn in E. injection E as <- E. cbn in Ew. injection Ew as Ew _. by vm_compute in Ew.
    - cbn [map concat]. rewrite <- !app_assoc. apply it_line; [done| |done| |exact IH].
      + intros E. apply H2. rewrite last_lookup in E. by eapply elem_of_list_lookup_2.
      + split_and!; [|apply expand_plain; rewrite elem_of_app, elem_of_cons; pose proof (not_elem_of_nil (A:=N) 36); naive_solver|done].
        intros E. apply H4. by left. }
  destruct (C36_command fs k st s line (trimmed line) lin [name] _ [(map (fun l => l ++ [10]) ls, o)] rest fuel Hb Hf Hs) as (files & s' & E & E1 & E2 & E3).
  - by apply expand_plain.
  - exact Hi.
  - eapply its_cons; [exact HT|constructor].
  - done.
  - constructor; [|constructor]. cbn [fst]. by rewrite map_length.
  - destruct files as [|f [|]]; try done. exists f, s'. split_and!; [done|done| |].
    + by destruct (E3 0%nat name _ f eq_refl eq_refl eq_refl) as (? & _).
    + destruct (E3 0%nat name _ f eq_refl eq_refl eq_refl) as (_ & (es & He & ->) & _). cbn [fst] in He. clear -He HP.
      revert es He. induction HP as [|l ls (H1 & H2 & _) _ IH]; intros es He; cbn [map] in He; inversion He as [|? e ? es' He1 He2]; subst; [done|].
      cbn [concat map]. rewrite (IH es' He2). f_equal.
      rewrite <- (ended_compute _ _ He1). apply ended_compute. apply ed_lf. intros E. apply H2. rewrite last_lookup in E. by eapply elem_of_list_lookup_2.
Qed.

(** ** An example: three inline files, a quoted name, an empty name, KEEP *)
Definition C36_fs (l : list string) : fsenv := exFs [("/d/i.mk", T l)]%string.
Definition C36_start (l : list string) : pst pp :=
  Pst (Some []) (opened (C36_fs l) "i.mk") (Mkfile ∅ None [] 0) [] [] [] false [] false false.
Definition C36_result {R} (r : pres (command * pst R)) : option (qstr * list (qstr * qstr * bool)) :=
  match r with POk (c, _) => Some (c_line c, map (fun f => (if_name f, if_content f, if_keep f)) (c_inline c)) | _ => None end.
Definition C36_run (line : string) (l : list string) : option (qstr * list (qstr * qstr * bool)) :=
  C36_result (parseCommandLine (ppNext (C36_fs l) 99) ppTab 99 (s2q line) false (C36_start l)).
Definition crlf : qstr := [13; 10].
Definition C36_textEx : list string := ["a b"; " # no comment"; ""; "<<KEEP"; "<<"; "c \"; "d^"; "<< keep KEEP"; "all: x"]%string.
Example C36_command_ex :
  pp_back (opened (C36_fs C36_textEx) "i.mk") = [] /\ pp_files (opened (C36_fs C36_textEx) "i.mk") <> [] /\
  C36_run " @link @<<a.rsp <<""b c"" <<" C36_textEx =
  Some (s2q "link @<< << <<", [(s2q "a.rsp", s2q "a b" ++ crlf ++ s2q " # no comment" ++ crlf ++ crlf, true); (s2q "b c", [], false);
                               ([], s2q "c \" ++ crlf ++ s2q "d^" ++ crlf, true)]).
Proof. split_and!; [by vm_compute|by vm_compute|]. by vm_compute. Qed.

(** ** What goes wrong *)
(** A line that begins with an exclamation mark is a directive also in an inline file: it does not get into the
    file, and what it says is done. *)
Theorem C36_directive_refuted : exists l, l = ["one"; "!IF 0"; "two"; "!ENDIF"; "!MESSAGE three"; "four"; "<<"]%string /\
  C36_run " cl @<<x" l = Some (s2q "cl @<<", [(s2q "x", s2q "one" ++ crlf ++ s2q "four" ++ crlf, false)]).
Proof. eexists. split; [reflexivity|]. by vm_compute. Qed.
(** A line that begins with the word include is an include directive, and an error if there is no such file. *)
Theorem C36_include_refuted : exists l, l = ["include your-header.h"; "<<"]%string /\ C36_run " cl @<<x" l = None /\
  exists e, parseCommandLine (ppNext (C36_fs l) 99) ppTab 99 (s2q " cl @<<x") false (C36_start l) = PErr (EPre e).
Proof. eexists. split; [reflexivity|]. split; [by vm_compute|]. eexists. by vm_compute. Qed.
(** A text that does not end is accepted: the rest of the makefile becomes the file. *)
Theorem C36_unterminated_refuted : exists l, l = ["one"; "all: x"; " cmd"]%string /\
  C36_run " cl @<<x" l = Some (s2q "cl @<<", [(s2q "x", s2q "one" ++ crlf ++ s2q "all: x" ++ crlf ++ s2q " cmd" ++ crlf, false)]).
Proof. eexists. split; [reflexivity|]. by vm_compute. Qed.
(** A shift or a here-document that is meant for the shell is taken for an inline file as well. *)
Theorem C36_quoted_refuted : exists l, l = ["one"; "<<"]%string /\
  C36_run " echo ""1 << 2""" l = Some (s2q "echo ""1 << 2""", [([], s2q "one" ++ crlf, false)]).
Proof. eexists. split; [reflexivity|]. by vm_compute. Qed.

Print Assumptions C36_names.
Print Assumptions C36_command.
Print Assumptions C36_plain.
Print Assumptions C36_directive_refuted.
Print Assumptions C36_include_refuted.
Print Assumptions C36_unterminated_refuted.
Print Assumptions C36_quoted_refuted.

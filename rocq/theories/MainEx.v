(** Small whole runs of jom, used by the examples of MainProps.v. *)
From Coq Require Import Ascii String.
From stdpp Require Import prelude gmap.
From Verif Require Import Base Data Graph Exec ExecSpec ExecEx Macro Env Opts OptsSpec LineReader Preproc MkParse CmdExec Main MainSpec.
Local Open Scope N_scope.

Definition lines (l : list string) : list N := concat (map (fun s => s2q s ++ [10]) l).
(** One makefile /d/Makefile; every file can be opened for writing. *)
Definition exFiles (text : list string) : fsenv :=
  let name p := if startsWith [47] p then p else s2q "/d/" ++ p in
  let is p := qeqb (name p) (s2q "/d/Makefile") in
  Fsenv is name (fun _ => s2q "/d") (fun p => if is p then Some (false, lines text) else None) (fun c => Z.of_nat (List.length c)).
(** A machine with four processors. *)
Definition exOut (args text : list string) : outside :=
  Outside (map s2q args) [s2q "Path=c:\bin"] (fun _ => None) 4 (s2q "c:\jom.exe") (s2q "c:\d") (fun _ => true) (exFiles text)
    (fun _ _ => []) (fun _ => true) (fun l => l) (fun l => l) true true (s2q "cmd") (s2q "c:\t\") (s2q "77").
Definition exAt (_ : nat) : moment :=
  Moment (fun _ => 5) (Xworld (fun _ _ _ => true) (fun _ => None) (fun _ => true) (fun n => [N.of_nat n + 48]))
    (Xst [] [] [] (Penv [] []) [] [] false [] ∅ 0 []).
Definition exNoFiles : world := exWorld [].

Definition exJom (u : outside) (w : world) (es : list event) : option (building * est) :=
  match mainStart u 200 2000 w with
  | MGoesOn b =>
    let xo := executorOptions u (bd_cl b) in
    match run (expandWithTable (pd_macros (bd_parsed b))) (prepare xo 2000 exAt) (kindOf (xo_dryRun xo) (xo_comspec xo)) w (bd_opts b) (bd_state b) es with
    | Some s => Some (b, s)
    | None => None
    end
  | _ => None
  end.
Lemma exJom_run u w es b s : exJom u w es = Some (b, s) -> jomRun u 200 2000 w exAt es b s.
Proof. unfold exJom, jomRun. destruct (mainStart _ _ _ _) as [| | |b']; try done. destruct (run _ _ _ _ _ _ _) eqn:E; [|done]. intros [= -> ->]. by split. Qed.
Definition exBuilding u w es : building := match exJom u w es with Some (b, _) => b | None => Building (Cmdline (settings 1 []) [] [] (Mtable ∅ ∅) []) (Parsed (exMk []) false (Mtable ∅ ∅)) None (exOpts false 1) (initState (exOpts false 1) (exMk []) [] 0) end.
Definition exState u w es : est := match exJom u w es with Some (_, s) => s | None => initState (exOpts false 1) (exMk []) [] 0 end.
Lemma exJom_ok u w es : isSome (exJom u w es) = true -> jomRun u 200 2000 w exAt es (exBuilding u w es) (exState u w es).
Proof. intros H. apply exJom_run. unfold exBuilding, exState. by destruct (exJom u w es) as [[b s]|]. Qed.
Lemma exJom_ends u w es e code : isSome (exJom u w es) = true -> e_end (exState u w es) = Some e -> exitCode e = Some code -> jomEnds u 200 2000 w exAt code.
Proof. intros H1 H2 H3. right. exists es, (exBuilding u w es), (exState u w es), e. by split; [apply exJom_ok|]. Qed.
Definition returns (u : outside) (w : world) : option N := match mainStart u 200 2000 w with MReturns c => Some c | _ => None end.
Lemma returns_ends u w code : returns u w = Some code -> jomEnds u 200 2000 w exAt code.
Proof. unfold returns, jomEnds. destruct (mainStart u 200 2000 w); try done. intros [= ->]. by left. Qed.

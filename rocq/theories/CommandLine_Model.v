(** Model of the command line of sesame2spiner (sesame2spiner/parse_cli.cpp, parse_cli.hpp, main.cpp, parser.cpp).
    argv is the list of the arguments, the program's name first; C guarantees argv[argc] = nullptr. Help text is dropped, the stream it
    goes to and the exit code are kept. *)
From Coq Require Import ZArith List Bool String.
From Verif Require Import Sesame_Model.
Import ListNotations.
Open Scope string_scope.

(** eospac-wrapper/eospac_wrapper.hpp:50 *)
Inductive Verbosity := Quiet | Verbose | Debug.
Definition veqb (a b : Verbosity) : bool := match a, b with Quiet, Quiet | Verbose, Verbose | Debug, Debug => true | _, _ => false end.
(** parse_cli.hpp:24 *)
Definition DEFAULT_SAVENAME : string := "materials.sp5".

(** the reference arguments of parseCLI, parse_cli.cpp:27-29 *)
Record settings := mkS { savename : string; filenames : list string; printMetadata : bool; eospacWarn : Verbosity }.
Inductive stream := Out | Err.
(** [NullSave]: savename = argv[argc], a null pointer assigned to a std::string: undefined behaviour *)
Inductive outcome := Parsed (c : settings) | Exit (s : stream) (code : Z) | NullSave.

(** parse_cli.cpp:63-79, the for loop; the list is argv[i], ..., argv[argc-1] *)
Fixpoint options (args : list string) (c : settings) : outcome :=
  match args with
  | [] => Parsed c
  | a :: rest =>
    if String.eqb a "-h" then Exit Out 0
    else if String.eqb a "-p" then options rest (mkS (savename c) (filenames c) true (eospacWarn c))
    else if ((String.eqb a "-w" || String.eqb a "-v") && veqb (eospacWarn c) Quiet)%bool
      then options rest (mkS (savename c) (filenames c) (printMetadata c) Verbose)
    else if ((String.eqb a "-d" || String.eqb a "-vv") && negb (veqb (eospacWarn c) Debug))%bool
      then options rest (mkS (savename c) (filenames c) (printMetadata c) Debug)
    else if String.eqb a "-s" then
      match rest with
      | [] => NullSave
      | s :: rest' => options rest' (mkS s (filenames c) (printMetadata c) (eospacWarn c))
      end
    else options rest (mkS (savename c) (filenames c ++ [a]) (printMetadata c) (eospacWarn c))
  end.

(** parse_cli.cpp:27-84; [c0] holds what the caller put in the reference arguments *)
Definition parseCLI (argv : list string) (c0 : settings) : outcome :=
  let c := mkS DEFAULT_SAVENAME [] (printMetadata c0) (eospacWarn c0) in
  if (List.length argv <? 2)%nat then Exit Err 1
  else if ((List.length argv =? 2)%nat && String.eqb (nth 1 argv "") "-h")%bool then Exit Out 0
  else match options (tl argv) c with
       | Parsed c => if (List.length (filenames c) <? 1)%nat then Exit Out 1 else Parsed c
       | o => o
       end.

(** parser.cpp:153-161 AddMaterials in the loop of generate_files.cpp:179-181: a file that cannot be opened throws ([None]) *)
Fixpoint AddAll (fs : string -> option (list string)) (files : list string) (a : acc_t) : option acc_t :=
  match files with
  | [] => Some a
  | f :: r => match fs f with
              | None => None
              | Some lines => match parse_file a lines with None => None | Some a' => AddAll fs r a' end
              end
  end.

(** main.cpp:39-58 up to the point where the output file is created (generate_files.cpp:179-184): the settings, and the materials read *)
Inductive run := Ready (c : settings) (materials : acc_t) | Terminated | Exited (s : stream) (code : Z) | Undefined.
Definition main (fs : string -> option (list string)) (argv : list string) : run :=
  match parseCLI argv (mkS "" [] false Quiet) with
  | Exit s n => Exited s n
  | NullSave => Undefined
  | Parsed c => match AddAll fs (filenames c) ([], []) with Some a => Ready c a | None => Terminated end
  end.

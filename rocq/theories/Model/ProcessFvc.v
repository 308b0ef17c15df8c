(** Model of process_fvc and get_outfilename of /repo/py/desimeter/processfvc.py (lines 22-79),
    with the reading and writing of fvc_proc under its default options (lines 83-119, 120-161, 207-).
    What is measured in an image, the argument parser and the starting of a program are parameters. *)
From Verif.Model Require Export PyString.
Local Open Scope string_scope.
Local Open Scope list_scope.
Local Open Scope Z_scope.

(** lines 74-79 *)
Definition get_outfilename (path_to_fits : string) : string :=
  let csv_name := replace ".fits" ".csv" (replace ".fits.fz" ".csv" path_to_fits) in
  path_join "/tmp" (basename csv_name).

Section Fvc.
Context {image table : Type}.
(** contents of a file *)
Inductive content := Image (i : image) | Csv (t : table).
Definition files := string -> option content.
Definition write (fs : files) (p : string) (t : table) : files := fun q => if String.eqb q p then Some (Csv t) else fs q.
(** [Table.read] *)
Definition read_table (fs : files) (p : string) : res table := match fs p with Some (Csv t) => Ok t | Some (Image _) => Err ValueError | None => Err FileNotFound end.

(** detection, matching and transformation (lines 142-156, 213-388) with the default options:
    the table to write, or None for less than three fiducials (line 241) *)
Variable analyse : image -> res (option table).
(** [parser.parse_args]: input and output file, or exit with code 2. Arguments that switch other options on are not modelled *)
Variable parse : list string -> option (string * string).

(** fvc_proc: error code and files. An exception leaves the files as they are: the table is written last *)
Definition fvc_proc (fs : files) (infile outfile : string) : res (Z * files) :=
  if negb (endswith ".csv" outfile) then Ok (12, fs)
  else if find ".fits" infile >? 0 then
    match fs infile with
    | None => Err FileNotFound
    | Some (Csv _) => Err ValueError
    | Some (Image i) => rmap (fun r => match r with None => (13, fs) | Some t => (0, write fs outfile t) end) (analyse i)
    end
  else Ok (13, fs).
(** desi_fvc_proc as a program: an exception is exit code 1 *)
Definition program (fs : files) (argv : list string) : Z * files :=
  match argv with
  | _ :: args => match parse args with
                 | None => (2, fs)
                 | Some (i, o) => match fvc_proc fs i o with Ok r => r | Err _ => (1, fs) end
                 end
  | [] => (1, fs)
  end.

(** lines 22-72 *)
Definition process_fvc (fs : files) (filename : string) (overwrite use_subprocess : bool) : res (option table) * files :=
  if find ".csv" filename >? 0 then (rmap Some (read_table fs filename), fs)
  else if find ".fits" filename <? 0 then (Err (SysExit 12), fs)
  else
    let outfilename := get_outfilename filename in
    if (match fs outfilename with Some _ => true | None => false end && negb overwrite)%bool then (rmap Some (read_table fs outfilename), fs)
    else
      let run := if use_subprocess then Ok (program fs (words ("desi_fvc_proc -i " ++ filename ++ " -o " ++ outfilename)%string))
                 else match parse ["-i"; filename; "-o"; outfilename] with None => Err (SysExit 2) | Some (i, o) => fvc_proc fs i o end in
      match run with
      | Err e => (Err e, fs)
      | Ok (errcode, fs') => if errcode =? 0 then (rmap Some (read_table fs' outfilename), fs') else (Ok None, fs')
      end.

(** a sequence of calls: results, last files *)
Record call := { c_file : string; c_overwrite : bool; c_subprocess : bool }.
Fixpoint calls (fs : files) (l : list call) : list (res (option table)) * files :=
  match l with
  | [] => ([], fs)
  | c :: l => let '(r, fs1) := process_fvc fs (c_file c) (c_overwrite c) (c_subprocess c) in let '(rs, fs2) := calls fs1 l in (r :: rs, fs2)
  end.
End Fvc.
Arguments content : clear implicits.
Arguments files : clear implicits.

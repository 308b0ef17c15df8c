(** Model of /repo/bin/write_fvc_image_processing_scripts: the job files that run desi_fvc_proc on a list of images, and the table of their dates and outputs.
    Messages, the creation of directories and of DONE.txt and the flushing of files are left out (lines 25-31, 39-42, 54, 88, 93, 113, 115-117, 122, 129); the last file
    is handed over as the rows of its table (lines 124-128). *)
From Verif.Model Require Export PyString Bitmask.
From Verif.Model Require Import PosMoveSelection.
Local Open Scope string_scope.
Local Open Scope list_scope.

(** The header of an HDU: EXTNAME is missing, not a string or a string; DATE-OBS and DATE are the texts that str() gives, if they are there *)
Record hdu := { h_extname : option (option string); h_dateobs : option string; h_date : option string }.
Record args := { a_jobdir : string; a_outdir : string; a_ntasks : Z; a_options : option string }.
Record task := { t_image : string; t_ext : string; t_out : string; t_transfo : string }.
(** "%03d" *)
Definition pad3 (s : string) : string := match String.length s with 0%nat => "000" ++ s | 1%nat => "00" ++ s | 2%nat => "0" ++ s | _ => s end.
Definition newline : ascii := "010".
Definition nl : string := String newline EmptyString.

(** lines 74-83: the date, None if there is none or the frame is left out *)
Definition date_of (h : hdu) : option string :=
  let d := match h_dateobs h with Some s => Some (strip s) | None => match h_date h with Some s => Some (strip s) | None => None end end in
  match d with
  | None | Some EmptyString => None
  | Some d => let d := hd EmptyString (split_char "." d) in if found "astropy" d then None else Some d
  end.
(** lines 66-83, for the HDUs of number 1 and more; a value of EXTNAME that is not a string has no find: the rest of the image is lost (line 111) *)
Fixpoint frames (l : list hdu) : list (string * string) :=
  match l with
  | [] => []
  | h :: r =>
      match h_extname h with
      | None => frames r
      | Some None => []
      | Some (Some e) => if negb (found "F0" e) then frames r else match date_of h with None => frames r | Some d => (e, d) :: frames r end
      end
  end.
(** lines 60-83: None is a file that cannot be opened *)
Definition image_frames (image : option (list hdu)) : list (string * string) :=
  match image with
  | None | Some [] => []
  | Some [h] => match date_of h with None => [] | Some d => [("0", d)] end
  | Some (_ :: r) => frames r
  end.

(** lines 85-87 *)
Definition short_name (filename : string) : string :=
  replace "." "-" (replace ".fits" "" (replace ".fits.gz" "" (replace ".fits.fz" "" (basename filename)))).
Definition task_of (a : args) (filename : string) (f : string * string) : task :=
  let name := (short_name filename ++ "-" ++ fst f ++ "-" ++ snd f)%string in
  {| t_image := filename; t_ext := fst f; t_out := (a_outdir a ++ "/" ++ name ++ ".csv")%string;
     t_transfo := (path_join (a_outdir a) "transfo" ++ "/" ++ name ++ ".json")%string |}.
(** lines 97-107 *)
Definition done_file (a : args) : string := path_join (a_jobdir a) "DONE.txt".
Definition task_text (a : args) (t : task) : string :=
  ("done=`grep " ++ t_out t ++ " " ++ done_file a ++ " | wc -l`" ++ nl ++
   "if (( done == 0 )) ; then" ++ nl ++
   "desi_fvc_proc -i " ++ t_image t ++ " -o " ++ t_out t ++ " --output-transform " ++ t_transfo t ++
   (if String.eqb (t_ext t) "0" then "" else " --ext " ++ t_ext t) ++
   match a_options a with None => "" | Some o => " " ++ o end ++ nl ++
   "echo " ++ t_out t ++ " >> " ++ done_file a ++ nl ++
   "else" ++ nl ++ "echo " ++ t_out t ++ " exists" ++ nl ++ "fi" ++ nl)%string.

(** The jobs closed so far, the tasks of the open one, their number, the rows of the table, the files given to chmod, and the name [filename] once it is bound *)
Record state := { s_jobs : list (list task); s_open : list task; s_count : Z; s_table : list (string * string); s_chmod : list string; s_filename : option string }.
Definition start : state := {| s_jobs := []; s_open := []; s_count := 0; s_table := []; s_chmod := []; s_filename := None |}.
(** lines 51-59 *)
Definition next_job (a : args) (filename : string) (s : state) : state :=
  if (a_ntasks a <=? s_count s)%Z then
    {| s_jobs := s_jobs s ++ [s_open s]; s_open := []; s_count := 0; s_table := s_table s; s_chmod := s_chmod s ++ [filename]; s_filename := s_filename s |}
  else s.
(** lines 84-108, for one frame; [isfile] tells the files that are there *)
Definition add_frame (isfile : string -> bool) (a : args) (filename : string) (s : state) (f : string * string) : state :=
  let t := task_of a filename f in
  let table := s_table s ++ [(snd f, t_out t)] in
  if (isfile (t_out t) && isfile (t_transfo t))%bool then
    {| s_jobs := s_jobs s; s_open := s_open s; s_count := s_count s; s_table := table; s_chmod := s_chmod s; s_filename := s_filename s |}
  else {| s_jobs := s_jobs s; s_open := s_open s ++ [t]; s_count := s_count s + 1; s_table := table; s_chmod := s_chmod s; s_filename := s_filename s |}.
(** lines 45-117, for one line of the list *)
Definition line_step (isfile : string -> bool) (fits_open : string -> option (list hdu)) (a : args) (s : state) (line : string) : state :=
  let filename := strip line in
  let s := {| s_jobs := s_jobs s; s_open := s_open s; s_count := s_count s; s_table := s_table s; s_chmod := s_chmod s; s_filename := Some filename |} in
  if found "primary" filename then s
  else fold_left (add_frame isfile a filename) (image_frames (fits_open filename)) (next_job a filename s).

(** What is written: the tasks of every job file in order, the rows DATE, FILE, the files given to chmod *)
Record written := { w_jobs : list (list task); w_table : list (string * string); w_chmod : list string }.
(** line 36, 56 *)
Definition job_name (a : args) (k : nat) : string := path_join (a_jobdir a) ("job-" ++ pad3 (str_of_N (N.of_nat k)) ++ ".sh")%string.
Definition job_text (a : args) (l : list task) : string := ("#!/bin/bash" ++ nl ++ String.concat "" (map (task_text a) l))%string.
(** the files written (lines 35-38, 56-58, 108, 120) *)
Definition job_files (a : args) (w : written) : list (string * string) :=
  map (fun '(k, l) => (job_name a k, job_text a l)) (combine (seq 0 (length (w_jobs w))) (w_jobs w)).
(** the whole script *)
Definition write_scripts (isfile : string -> bool) (fits_open : string -> option (list hdu)) (a : args) (lines : list string) : res written :=
  let s := fold_left (line_step isfile fits_open a) lines start in
  match s_filename s with
  | None => Err NameError
  | Some f => Ok {| w_jobs := s_jobs s ++ [s_open s]; w_table := s_table s; w_chmod := s_chmod s ++ [f] |}
  end.

(** The frames of a list of images, the lines of a task, and what running the job files does. *)
From Verif.Spec Require Export PosMoveSelection.
From Verif.Model Require Import ImageJobs.
Local Open Scope string_scope.
Local Open Scope list_scope.

(** The date of a header: DATE-OBS, or DATE if there is no DATE-OBS, without the white space around it and up to the first dot; not empty before the dot is looked for *)
Definition dated (h : hdu) (d : string) : Prop :=
  exists raw t, (h_dateobs h = Some raw \/ h_dateobs h = None /\ h_date h = Some raw) /\ trimmed raw t /\ t <> "" /\
    free_of "." d /\ (t = d \/ exists r, t = append d (String "." r)) /\ ~ contains "astropy" d.
(** The frames of the HDUs after the first: those with F0 in EXTNAME and a date, up to the first EXTNAME that is not a string *)
Inductive frames_are : list hdu -> list (string * string) -> Prop :=
| frames_end : frames_are [] []
| frames_broken h r : h_extname h = Some None -> frames_are (h :: r) []
| frames_other h r l : h_extname h = None \/ (exists e, h_extname h = Some (Some e) /\ (~ contains "F0" e \/ forall d, ~ dated h d)) -> frames_are r l -> frames_are (h :: r) l
| frames_take h r l e d : h_extname h = Some (Some e) -> contains "F0" e -> dated h d -> frames_are r l -> frames_are (h :: r) ((e, d) :: l).
(** The frames of an image: of one HDU it is that one, named 0, of several those after the first *)
Inductive image_has : option (list hdu) -> list (string * string) -> Prop :=
| image_closed : image_has None []
| image_empty : image_has (Some []) []
| image_single h d : dated h d -> image_has (Some [h]) [("0", d)]
| image_undated h : (forall d, ~ dated h d) -> image_has (Some [h]) []
| image_several h g r l : frames_are (g :: r) l -> image_has (Some (h :: g :: r)) l.
(** The frames of a line of the list, with the name of the image *)
Definition line_has (fits_open : string -> option (list hdu)) (line : string) (l : list (string * (string * string))) : Prop :=
  exists f, trimmed line f /\ (contains "primary" f /\ l = [] \/ ~ contains "primary" f /\ exists fr, image_has (fits_open f) fr /\ l = map (pair f) fr).
(** The image is left out before its frames are looked at *)
Definition primary (line : string) : Prop := exists f, trimmed line f /\ contains "primary" f.

(** The lines of a job file for a task *)
Definition task_lines (a : args) (t : task) : list string :=
  [("done=`grep " ++ t_out t ++ " " ++ done_file a ++ " | wc -l`")%string; "if (( done == 0 )) ; then"%string;
   ("desi_fvc_proc -i " ++ t_image t ++ " -o " ++ t_out t ++ " --output-transform " ++ t_transfo t ++
     (if String.eqb (t_ext t) "0" then "" else " --ext " ++ t_ext t) ++ match a_options a with None => "" | Some o => " " ++ o end)%string;
   ("echo " ++ t_out t ++ " >> " ++ done_file a)%string; "else"%string; ("echo " ++ t_out t ++ " exists")%string; "fi"%string].

(** Running the lines of a task: [matches p l] tells whether grep finds the pattern [p] in the line [l]; the state is the lines of DONE.txt and the tasks processed *)
Definition run_task (matches : string -> string -> bool) (s : list string * list task) (t : task) : list string * list task :=
  if existsb (matches (t_out t)) (fst s) then s else (fst s ++ [t_out t], snd s ++ [t]).
Definition run_jobs (matches : string -> string -> bool) (done : list string) (jobs : list (list task)) : list string * list task :=
  fold_left (run_task matches) (concat jobs) (done, []).
(** Dots replaced by dashes *)
Fixpoint dashed (s : string) : string := match s with EmptyString => EmptyString | String c r => String (if Ascii.eqb c "." then "-"%char else c) (dashed r) end.

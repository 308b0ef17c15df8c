(** Model of /repo/py/desimeter/log.py. *)
From Verif.Model Require Export Prelude.
From Coq Require Import String.
Local Open Scope string_scope.
Local Open Scope list_scope.

(** log.py:37-69: what was configured when the logger was created: threshold, file to which it writes, timestamps. The console handler is always there. *)
Record logger := { lg_level : Z; lg_path : option string; lg_timestamps : bool }.
(** log.py:6 the module variable [_loggers] *)
Definition loggers := dict string logger.
(** log.py:23-34 with the numeric levels of the module logging *)
Definition loglevel (level : string) : res Z :=
  if String.eqb level "DEBUG" then Ok 10 else if String.eqb level "INFO" then Ok 20
  else if (String.eqb level "WARN" || String.eqb level "WARNING")%bool then Ok 30 else if String.eqb level "ERROR" then Ok 40
  else if (String.eqb level "FATAL" || String.eqb level "CRITICAL")%bool then Ok 50 else Err ValueError.
(** log.py:48: an empty path is no path *)
Definition some_path (p : option string) : option string := match p with Some "" => None | _ => p end.
(** log.py:7-73 [get_logger]; [env] is [os.getenv('DESI_LOGLEVEL', 'INFO').upper()] at the time of the call. That the file can be opened is assumed. *)
Definition get_logger (env : string) (level path : option string) (timestamps : bool) (st : loggers) : res (logger * loggers) :=
  let lv := match level with Some l => l | None => env end in
  rbind (loglevel lv) (fun n =>
  match dict_get String.eqb st lv with
  | Some lg => Ok (lg, st)
  | None => let lg := {| lg_level := n; lg_path := some_path path; lg_timestamps := timestamps |} in Ok (lg, dict_set String.eqb st lv lg)
  end).

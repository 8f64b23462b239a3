(** Loggers: zfit/util/logging.py [get_logger]. One logger with its handlers; the formats of the lines are left out. *)
From Verif Require Import Base.

(** Levels are numbers; WARNING is 30 and a new handler has level 0. *)
Definition level := nat.
Definition WARNING : level := 30.
Inductive handler : Type := Stream (l : level) | File (path : string) (l : level).
Record logger : Type := Logger { handlers : list handler; lg_level : level }.

(** The argument [file_name]: text, or a Path. Relative names are taken to be absolute already. *)
Inductive file_name : Type := Text (s : string) | APath (s : string).
Definition truthy (f : option file_name) : bool :=
  match f with None => false | Some (Text EmptyString) => false | Some _ => true end.
Definition path_of (f : file_name) : string := match f with Text s | APath s => s end.

(** logging.py:45-46: the name of the logger; [rstrip] of the dots is a function on strings. *)
Definition full_name (rstrip : string -> string) (n : string) : string :=
  if prefix "zfit" n then n else append "zfit." (rstrip n).

Definition set_handler_level (h : handler) (l : level) : handler := match h with Stream _ => Stream l | File p _ => File p l end.
(** [logger.handlers[0].setLevel]: handlers are mutable, the list keeps them *)
Definition set_first (l : level) (hs : list handler) : list handler :=
  match hs with [] => [] | h :: r => set_handler_level h l :: r end.
Fixpoint set_nth (i : nat) (l : level) (hs : list handler) : list handler :=
  match hs, i with
  | [], _ => []
  | h :: r, 0 => set_handler_level h l :: r
  | h :: r, S i => h :: set_nth i l r
  end.

(** 63-69, the search for the handler of the file. [Path.resolve] of a text is an AttributeError, and a Path is never
    equal to the text [baseFilename]. *)
Fixpoint find_file (f : option file_name) (i : nat) (hs : list handler) : result (option nat) :=
  match hs with
  | [] => Ok None
  | Stream _ :: r => find_file f (S i) r
  | File _ _ :: r =>
      if negb (truthy f) then Ok (Some i)
      else match f with Some (Text _) => Err AttributeError | _ => find_file f (S i) r end
  end.

(** 47-88 [get_logger]: the logger afterwards, also after an error. *)
Definition get_logger (lg : logger) (stdout_level file_level : option level) (f : option file_name) : logger * option error :=
  let out := match stdout_level with Some l => l | None => WARNING end in
  let hs := match handlers lg with [] => [Stream 0] | hs => hs end in
  let hs := set_first out hs in
  match find_file f 0 hs with
  | Err e => (Logger hs (lg_level lg), Some e)
  | Ok found =>
      let '(hs, found) := match truthy f, found, f with
                          | true, None, Some n => (hs ++ [File (path_of n) 0], Some (length hs))
                          | _, _, _ => (hs, found)
                          end in
      match file_level, found with
      | Some _, None => (Logger hs (lg_level lg), Some ValueError)
      | _, _ =>
          let fl := match file_level with Some l => l | None => WARNING end in
          let hs := match found with Some i => set_nth i fl hs | None => hs end in
          (Logger hs (Nat.min out fl), None)
      end
  end.

(** Python's logging: level 0 (NOTSET) of a logger means that of the logger above, here WARNING of the root logger. *)
Definition effective (lg : logger) : level := match lg_level lg with 0 => WARNING | l => l end.
(** Python's logging: a message goes to the handlers whose level, like that of the logger, is not above its level. *)
Definition takes (m : level) (h : handler) : bool := match h with Stream l | File _ l => Nat.leb l m end.
Definition receivers (lg : logger) (m : level) : list handler :=
  if Nat.leb (effective lg) m then filter (takes m) (handlers lg) else [].
Definition new_logger : logger := Logger [] WARNING.

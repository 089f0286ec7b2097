(** Running the generation scripts: generation/generateAll.sh, generation/query.lua and the rules of
    generation/CMakeLists.txt. *)
From Verif Require Export Generate.
Local Open Scope string_scope.

(** The globals that variadicGenerate.lua sets before it runs a data file, generation/variadicGenerate.lua:3-7. *)
Record limits := Limits { l_rmin : nat; l_rmax : nat; l_smin : nat; l_smax : nat }.
Definition library_limits : limits := Limits 0 9 0 9.

(** What a data file returns, as far as it is used: outFile, if it has one, and what main prints for a given
    source, generation/variadicGenerate.lua:13-37; [None] is a Lua error. *)
Record gendata := GenData { gd_outfile : option string; gd_main : string -> option string }.

(** A data file run with dofile: in variadicGenerate.lua the limits are set, in query.lua (generation/query.lua:12)
    they are not; [None] is a Lua error. *)
Definition datafile := option limits -> option gendata.

(** generation/SendOverloads.gen.lua:20-114, generation/PartialHandlerBase.gen.lua:1-89, generation/ArityConfig.gen.lua:1-83.
    The first puts tostring(SendOverloadMaxArity) into the prefix while it is read, which is no error when the global
    is not set. *)
Definition send_data : datafile := fun g =>
  Some (GenData (Some "detail/operations/SendOverloads_Generated.h")
                (fun source => let* l := g in send_header (l_smin l) (l_smax l) source)).
Definition partial_data : datafile := fun g =>
  Some (GenData (Some "PartialHandlerBase.h") (fun source => let* l := g in partial_header (l_rmin l) (l_rmax l) source)).
Definition config_data : datafile := fun g =>
  Some (GenData (Some "detail/constants/ArityConfig.h")
                (fun source => let* l := g in config_header (l_smax l) (l_rmax l) source)).

(** The data files, generation/CMakeLists.txt:3-6; the same as generation/*.gen.lua, in the order of the names. *)
Definition data_files : list (string * datafile) :=
  [("ArityConfig.gen.lua", config_data); ("PartialHandlerBase.gen.lua", partial_data); ("SendOverloads.gen.lua", send_data)].

(** The files below tuple-transmission/; the directories exist and can be written to. *)
Definition tree := string -> option string.
Definition put (t : tree) (name text : string) : tree := fun n => if String.eqb n name then Some text else t n.

(** What [query.lua outFile file] prints, generation/query.lua:2-13: print(nil) writes "nil".  The names have no
    newlines at their end, which both callers remove. *)
Definition query_outfile (d : datafile) : option string :=
  let* g := d None in Some (match gd_outfile g with Some o => o | None => "nil" end).

(** What [variadicGenerate.lua file "variadicGenerate.lua on input name"] prints; the same command in
    generation/generateAll.sh:20 and generation/CMakeLists.txt:34-38. *)
Definition made (lim : limits) (nd : string * datafile) : option string :=
  let* g := snd nd (Some lim) in gd_main g ("variadicGenerate.lua on input " ++ fst nd).

(** The body of the loop of generation/generateAll.sh:14-23, with set -e (line 2): whether the script goes on.  The shell
    empties the output before it starts the command (line 20); the scripts are in a directory without blanks in
    its name, and Lua prints all or, after an error, nothing. *)
Definition generate_one (lim : limits) (t : tree) (nd : string * datafile) : tree * bool :=
  match query_outfile (snd nd) with
  | None => (t, false)
  | Some o => match made lim nd with Some text => (put t o text, true) | None => (put t o "", false) end
  end.

(** generation/generateAll.sh: the tree afterwards and whether it ends with success. *)
Fixpoint generate_all (lim : limits) (l : list (string * datafile)) (t : tree) : tree * bool :=
  match l with
  | [] => (t, true)
  | nd :: rest => let '(t, ok) := generate_one lim t nd in if ok then generate_all lim rest t else (t, false)
  end.

(** The files below tuple-transmission/ and the times they were last written. *)
Record stamped := Stamped { st_tree : tree; st_time : string -> Z }.

(** The rules made when CMake runs, generation/CMakeLists.txt:20-45: an output for each data file that query.lua
    accepts (line 31); no rule and no message for the others. *)
Definition build_rules (l : list (string * datafile)) : list (string * (string * datafile)) :=
  flat_map (fun nd => match query_outfile (snd nd) with Some o => [(o, nd)] | None => [] end) l.

(** Whether the output has to be made: missing, or older than the data file or than variadicGenerate.lua
    (MAIN_DEPENDENCY and DEPENDS, generation/CMakeLists.txt:39-42). *)
Definition outdated (src : string -> Z) (script : Z) (b : stamped) (o name : string) : bool :=
  match st_tree b o with
  | None => true
  | Some _ => (st_time b o <? src name)%Z || (st_time b o <? script)%Z
  end.

(** Building an output at the time [now].  The command's output is redirected (line 38), so that the file is emptied
    first; build tools differ in whether they delete the output of a command that failed. *)
Definition build_one (deletes : bool) (lim : limits) (src : string -> Z) (script now : Z) (b : stamped)
  (r : string * (string * datafile)) : stamped * bool :=
  let '(o, nd) := r in
  if outdated src script b o (fst nd) then
    let time := fun n => if String.eqb n o then now else st_time b n in
    match made lim nd with
    | Some text => (Stamped (put (st_tree b) o text) time, true)
    | None => (Stamped (if deletes then (fun n => if String.eqb n o then None else st_tree b n) else put (st_tree b) o "") time, false)
    end
  else (b, true).

(** The target regenerate-headers, generation/CMakeLists.txt:48-52. *)
Fixpoint build_all (deletes : bool) (lim : limits) (src : string -> Z) (script now : Z) (rs : list (string * (string * datafile)))
  (b : stamped) : stamped * bool :=
  match rs with
  | [] => (b, true)
  | r :: rest => let '(b, ok) := build_one deletes lim src script now b r in
                 if ok then build_all deletes lim src script now rest b else (b, false)
  end.

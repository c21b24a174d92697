(** Datasets in the package, in the cache or on the web: class Dataset, clear_cache() and get_fetching_pooch(),
    src/kikuchipy/data/_data.py 43-93 and 615-786, with the registries of data/_registry.py as parameters.

    pooch is modelled from its documentation: Pooch.fetch(name) needs a registered name; it keeps a file whose hash is the registered
    one ("fetch"), and otherwise downloads to a temporary file, at most 1 + retry_if_failed = 6 times until the hash is right, and moves it
    in place; if none is right it raises. The url is registered or the base url "" plus the name, which requests refuses. Unzip extracts if the
    archive was downloaded or the directory does not exist, and lists the files in the directory. Paths are relative to the cache directory
    of this version of kikuchipy, except in [session]. *)
From Coq Require Import String List Bool Arith.
Import ListNotations.
Local Open Scope list_scope.

Definition path := list string.
Definition path_eqb (p q : path) : bool := if list_eq_dec string_dec p q then true else false.

Section Datasets.
(** Contents of files, hashlib.md5 and the members of an archive. *)
Context {Content : Type} (md5 : Content -> string) (members : Content -> list (path * Content)).

Record disk := Disk { files : list (path * Content); folders : list path }.
Definition find_file (p : path) (d : list (path * Content)) : option Content := option_map snd (find (fun e => path_eqb (fst e) p) d).
Definition drop (p : path) (d : list (path * Content)) : list (path * Content) := filter (fun e => negb (path_eqb (fst e) p)) d.
(** What is done to the disk, in order. *)
Inductive effect := Move (p : path) (c : Content) | Extract (p : path) (c : Content) | Make_folder (p : path) | Remove (p : path).
Definition apply (e : effect) (d : disk) : disk :=
  match e with
  | Move p c | Extract p c => Disk ((p, c) :: drop p (files d)) (folders d)
  | Make_folder p => Disk (files d) (p :: folders d)
  | Remove p => Disk (drop p (files d)) (folders d)
  end.
Definition run (es : list effect) (d : disk) : disk := fold_left (fun d e => apply e d) es d.

Record registry := Registry { hashes : list (path * string); urls : list (path * string) }.
Definition lookup (p : path) (l : list (path * string)) : option string := option_map snd (find (fun e => path_eqb (fst e) p) l).
(** The answers of a server to the attempts to download a url; None is a failure. *)
Definition network := string -> list (option Content).
Inductive action := Fetched | Downloaded.
(** Effects so far, urls asked for and the value, None for an exception. *)
Record result A := Result { done : list effect; traffic : list string; value : option A }.
Arguments Result {A}. Arguments done {A}. Arguments traffic {A}. Arguments value {A}.

Definition valid (h : string) (c : option Content) : bool := match c with Some c => String.eqb (md5 c) h | None => false end.
Definition pooch_fetch (r : registry) (net : network) (p : path) (d : disk) : result action :=
  match lookup p (hashes r) with
  | None => Result [] [] None
  | Some h =>
    if valid h (find_file p (files d)) then Result [] [] (Some Fetched) else
    match lookup p (urls r) with
    | None => Result [] [] None
    | Some u => match find (valid h) (firstn 6 (net u)) with
                | Some (Some c) => Result [Move p c] [u] (Some Downloaded)
                | _ => Result [] [u] None
                end
    end
  end.

(** A dataset: folders below data and name of the file, and the archive it is in. *)
Record dataset := Dataset { folder : path; name : string; collection : option string }.
Definition file_relpath (s : dataset) : path := "data"%string :: folder s ++ [name s].
Definition file_directory (s : dataset) : path := "data"%string :: folder s.
Fixpoint is_prefix (p q : path) : bool := match p, q with [], _ => true | x :: p, y :: q => String.eqb x y && is_prefix p q | _, _ => false end.
(** fetch_file_path_from_collection, 702-730, for a dataset in a folder. *)
Definition fetch_collection (r : registry) (net : network) (s : dataset) (coll : string) (d : disk) : result unit :=
  let zip := ["data"%string; coll] in
  let f := pooch_fetch r net zip d in
  match value f with
  | None => Result (done f) (traffic f) None
  | Some a =>
    let d := run (done f) d in
    let dir := file_directory s in
    let extract := match a with Downloaded => true | Fetched => negb (existsb (path_eqb dir) (folders d)) end in
    let es := if extract then match find_file zip (files d) with
                              | Some c => Make_folder dir :: map (fun m => Extract (dir ++ fst m) (snd m)) (members c)
                              | None => [] end
              else [] in
    let d := run es d in
    let listed := existsb (fun e => is_prefix dir (fst e) && String.eqb (last (fst e) ""%string) (name s)) (files d) in
    Result (done f ++ es ++ [Remove zip]) (traffic f) (if listed then Some tt else None)
  end.
(** fetch_file_path, 732-786. The value is where the file is: in the package or in the cache. *)
Inductive place := In_package | In_cache.
Definition fetch_file_path (pooch_installed : bool) (package : list (path * Content)) (r : registry) (net : network) (s : dataset) (allow_download : bool) (d : disk) : result place :=
  let p := file_relpath s in
  match lookup p (hashes r) with
  | None => Result [] [] None
  | Some h =>
    match find_file p package with
    | Some c => Result [] [] (if valid h (Some c) then Some In_package else None)
    | None =>
      if negb pooch_installed then Result [] [] None else
      let ok := valid h (find_file p (files d)) in
      if negb ok && negb allow_download then Result [] [] None else
      let f := match collection s with
               | Some coll => if ok then Result [] [] (Some tt) else fetch_collection r net s coll d
               | None => Result [] [] (Some tt)
               end in
      match value f with
      | None => Result (done f) (traffic f) None
      | Some _ => let g := pooch_fetch r net p (run (done f) d) in
                  Result (done f ++ done g) (traffic f ++ traffic g) (option_map (fun _ => In_cache) (value g))
      end
    end
  end.

(** The program may be stopped between two effects, or while a member is extracted: then the file has any content. *)
Inductive stopped (es : list effect) (d : disk) : disk -> Prop :=
| Stopped_between es1 es2 : es = es1 ++ es2 -> stopped es d (run es1 d)
| Stopped_within es1 p c es2 junk : es = es1 ++ Extract p c :: es2 -> stopped es d (run (es1 ++ [Extract p junk]) d).
End Datasets.
Arguments disk : clear implicits. Arguments effect : clear implicits. Arguments Result {Content A}. Arguments done {Content A}. Arguments traffic {Content A}. Arguments value {Content A}.
Arguments network : clear implicits.

(** The directory: get_fetching_pooch() is cached, so that it keeps the directory of its first call (76-93); clear_cache() reads the
    environment variable each time (54-73). *)
Record session Content := Session { variable : option string; remembered : option string; directories : string -> disk Content }.
Arguments Session {Content}. Arguments variable {Content}. Arguments remembered {Content}. Arguments directories {Content}.
Definition chosen (default : string) (v : option string) : string := match v with Some x => x | None => default end.
Inductive command Content := Set_variable (v : option string) | Use (change : disk Content -> disk Content) | Clear_cache.
Arguments Set_variable {Content}. Arguments Use {Content}. Arguments Clear_cache {Content}.
(** The directory a dataset is in. *)
Definition directory {Content} (default : string) (s : session Content) : string := match remembered s with Some b => b | None => chosen default (variable s) end.
Definition set_directory {Content} (b : string) (d : disk Content) (f : string -> disk Content) : string -> disk Content := fun b' => if String.eqb b' b then d else f b'.
Definition command_step {Content} (default : string) (c : command Content) (s : session Content) : session Content :=
  match c with
  | Set_variable v => Session v (remembered s) (directories s)
  | Use change => let b := directory default s in Session (variable s) (Some b) (set_directory b (change (directories s b)) (directories s))
  | Clear_cache => Session (variable s) (remembered s) (set_directory (chosen default (variable s)) (Disk [] []) (directories s))
  end.
Definition commands {Content} (default : string) (cs : list (command Content)) (s : session Content) : session Content := fold_left (fun s c => command_step default c s) cs s.

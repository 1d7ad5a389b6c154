(** The downloader tools/download_sumo_datasets.py.

    A run of the program is a function of what the outside world decides: the answers of
    the server, the operating system errors during extraction and the order in which the
    worker processes do their steps.  A worker's task is a sequence of steps on the shared
    folder; any task may do the next step at any time, which includes the orders that the
    pool of three workers allows.  A run that ends in the middle (killed, power lost,
    interrupted by the user while workers are terminated) is one whose order of steps does
    not finish the tasks.

    Not modelled: log texts, folders (the destination and .cache exist, 259-266 of
    create_target_folder), names in the configuration with a slash in them, destination
    names with glob's special characters, and failing directory listings. *)
From Coq Require Import List Bool String Ascii Arith QArith.
From Verif.Base Require Import Py.
Import ListNotations.
Local Open Scope string_scope.
Local Open Scope list_scope.

(** * Strings *)

(** str.replace for a non-empty old; [skip] characters are part of the occurrence that was
    just replaced. *)
Fixpoint replace_from (skip : nat) (old new s : string) : string :=
  match s with
  | "" => ""
  | String c s' =>
    match skip with
    | S k => replace_from k old new s'
    | O => if String.prefix old s then new ++ replace_from (String.length old - 1) old new s'
           else String c (replace_from 0 old new s')
    end
  end%string.
Definition replace (old new s : string) : string := replace_from 0 old new s.

Fixpoint ends_with (suffix s : string) : bool :=
  (String.eqb s suffix || match s with "" => false | String _ s' => ends_with suffix s' end)%bool.

(** The pattern "*" ++ suffix of glob: hidden names do not match. *)
Definition glob_match (suffix name : string) : bool :=
  (ends_with suffix name && negb (String.prefix "." name))%bool.

(** * The folder *)

(** A path below the destination folder. *)
Definition path := list string.
Definition path_eqb (p q : path) : bool := if list_eq_dec string_dec p q then true else false.

(** The files with their contents, and the names of the archives that were requested from
    the server so far. *)
Record world := World { files : list (path * string); requests : list string }.
Definition content (p : path) (w : world) : option string := dget path_eqb p (files w).
Definition put (p : path) (x : string) (w : world) : world := World (dset path_eqb p x (files w)) (requests w).
Definition delete (p : path) (w : world) : world := World (filter (fun kv => negb (path_eqb p (fst kv))) (files w)) (requests w).
Definition append (p : path) (x : string) (w : world) : world :=
  match content p w with Some y => put p (y ++ x)%string w | None => w end.
Definition request (n : string) (w : world) : world := World (files w) (requests w ++ [n]).

(** * Tasks *)

Inductive proc := Done | Step (f : world -> world * proc).

(** An operating system error in the place of the step number [k]. *)
Fixpoint cutoff (k : nat) (p : proc) : proc :=
  match k, p with
  | S k, Step f => Step (fun w => let (w', p') := f w in (w', cutoff k p'))
  | _, _ => Done
  end.

(** What the server and the network do with a request: no connection, an error status, no
    content-length, the file cannot be opened, or a body that arrives in chunks.  Without
    [fine] an exception follows the chunks (also KeyboardInterrupt, which cleans up in the
    same way, and errors in writing the file). *)
Inductive reply :=
| NoConnection | BadStatus | NoLength | CannotOpen
| Body (total_length : nat) (chunks : list string) (fine : bool).

(** The handlers, 101-110. *)
Definition cleanup (n : string) : proc :=
  Step (fun w => match content [n] w with
                 | Some _ => (w, Step (fun w => (delete [n] w, Done)))
                 | None => (w, Done)
                 end).

Fixpoint write_all (n : string) (chunks : list string) (fine : bool) : proc :=
  match chunks with
  | [] => if fine then Done else cleanup n
  | c :: chunks => Step (fun w => (append [n] c w, write_all n chunks fine))
  end.

(** download_one, 75-110. *)
Definition download_one (r : reply) (n : string) : proc :=
  Step (fun w => (request n w,
    match r with
    | Body total_length chunks fine =>
      Step (fun w => (put [n] "" w,
        if Nat.eqb total_length 0 then
          (* response.content reads everything before the first write *)
          if fine then write_all n [String.concat "" chunks] true else write_all n [] false
        else write_all n chunks fine))
    | _ => cleanup n
    end)).

Section Run.
  (** What zipfile does with an archive: the members that it extracts and whether it does
      so without an exception. *)
  Variable unzip : string -> list (path * string) * bool.

  Definition cache_path (n : string) : path := [".cache"; replace ".zip" ".cache" n].

  (** 120-128. *)
  Definition mark (n : string) : proc :=
    Step (fun w => (delete [n] w,
      Step (fun w => (put (cache_path n) "" w,
        Step (fun w => (append (cache_path n) "complete" w, Done)))))).

  Fixpoint extract (n : string) (members : list (path * string)) (fine : bool) : proc :=
    match members with
    | [] => if fine then mark n else Done
    | (p, x) :: members => Step (fun w => (put p x w, extract n members fine))
    end.

  (** unzip_one, 113-133.  A member is extracted in one step. *)
  Definition unzip_one (error : option nat) (n : string) : proc :=
    let task := Step (fun w =>
      match content [n] w with
      | Some data => let (members, fine) := unzip data in (w, extract n members fine)
      | None => (w, Done)
      end) in
    match error with Some k => cutoff k task | None => task end.

  (** * The pool *)

  Fixpoint update {A} (i : nat) (x : A) (l : list A) : list A :=
    match i, l with
    | _, [] => []
    | O, _ :: l => x :: l
    | S i, y :: l => y :: update i x l
    end.

  (** The tasks do their steps in the given order. *)
  Fixpoint parallel (order : list nat) (tasks : list proc) (w : world) : world * list proc :=
    match order with
    | [] => (w, tasks)
    | i :: order =>
      match nth_error tasks i with
      | Some (Step f) => let (w', p') := f w in parallel order (update i p' tasks) w'
      | _ => parallel order tasks w
      end
    end.
  Definition finished (tasks : list proc) : bool := forallb (fun p => match p with Done => true | Step _ => false end) tasks.

  (** * The phases *)

  (** remove_existing_files, 55-57. *)
  Definition remove_existing_files (zip_files existing_zip_files : list string) : list string :=
    filter (fun z => negb (str_in z existing_zip_files)) zip_files.

  (** The configuration, 70-73. *)
  Record config := Config { training_input : list string; training_ground_truth : list string }.
  Definition listed (c : config) : list string := training_input c ++ training_ground_truth c.

  (** get_zip_file_count, 236-256.  The replacements in the path of the .cache folder are
      undone by basename. *)
  Definition existing_zips (w : world) : list string :=
    flat_map (fun p => match p with [n] => if glob_match ".zip" n then [n] else [] | _ => [] end) (dkeys (files w)).
  Definition extracted_zips (w : world) : list string :=
    flat_map (fun p => match p with
                       | [d; n] => if String.eqb d ".cache" then if glob_match ".cache" n then [replace ".cache" ".zip" n] else [] else []
                       | _ => [] end) (dkeys (files w)).
  Definition get_zip_file_count (c : config) (w : world) : list string * list string * list string * list string :=
    (listed c, existing_zips w, remove_existing_files (listed c) (existing_zips w ++ extracted_zips w), extracted_zips w).

  (** How a phase ends: with "complete", with "unable" and the number left, without a
      message, or in the middle. *)
  Inductive ending := Complete | Unable (left : nat) | Silent | Stopped.

  Definition MAX_RETRIES := 3%nat.

  Record download_round := DownloadRound { replies : string -> reply; download_order : list nat }.
  Record unzip_round := UnzipRound { errors : string -> option nat; unzip_order : list nat }.

  Definition remaining (c : config) (w : world) : list string := let '(_, _, r, _) := get_zip_file_count c w in r.

  (** The loop of download_zips_in_parallel, 145-171; [fuel] is MAX_RETRIES - retries. *)
  Fixpoint download_loop (rounds : nat -> download_round) (c : config) (fuel retries : nat) (remaining_zips : list string) (w : world) : world * ending :=
    match fuel with
    | O => let left := remaining c w in (w, if Nat.ltb 0 (List.length left) then Unable (List.length left) else Silent)
    | S fuel =>
      let r := rounds retries in
      let (w, tasks) := parallel (download_order r) (map (fun n => download_one (replies r n) n) remaining_zips) w in
      if finished tasks then
        let remaining_zips := remaining c w in
        if Nat.eqb (List.length remaining_zips) 0 then (w, Complete)
        else download_loop rounds c fuel (S retries) remaining_zips w
      else (w, Stopped)
    end.

  (** download_zips_in_parallel, 136-182. *)
  Definition download_zips_in_parallel (rounds : nat -> download_round) (c : config) (w : world) : world * ending :=
    let remaining_zips := remaining c w in
    if Nat.eqb (List.length remaining_zips) 0 then (w, Complete)
    else download_loop rounds c MAX_RETRIES 0 remaining_zips w.

  (** The loop of unzip_files_in_parallel, 194-223. *)
  Fixpoint unzip_loop (rounds : nat -> unzip_round) (c : config) (fuel retries : nat) (existing_zip : list string) (w : world) : world * ending :=
    match fuel with
    | O =>
      let '(all_zips, _, _, extracted) := get_zip_file_count c w in
      (w, if Nat.ltb (List.length extracted) (List.length all_zips) then Unable (List.length all_zips - List.length extracted) else Silent)
    | S fuel =>
      let r := rounds retries in
      let (w, tasks) := parallel (unzip_order r) (map (fun n => unzip_one (errors r n) n) existing_zip) w in
      if finished tasks then
        let existing_zip := existing_zips w in
        if Nat.eqb (List.length existing_zip) 0 then (w, Complete)
        else unzip_loop rounds c fuel (S retries) existing_zip w
      else (w, Stopped)
    end.

  (** unzip_files_in_parallel, 185-233. *)
  Definition unzip_files_in_parallel (rounds : nat -> unzip_round) (c : config) (w : world) : world * ending :=
    let existing_zip := existing_zips w in
    if Nat.eqb (List.length existing_zip) 0 then (w, Complete)
    else unzip_loop rounds c MAX_RETRIES 0 existing_zip w.

  (** What the world decides for one run: the configuration file (None: it cannot be
      read), the free space in GB, and the rounds of both phases. *)
  Record events := Events {
    configuration : option config; free_space : Q;
    download_rounds : nat -> download_round; unzip_rounds : nat -> unzip_round }.

  Inductive outcome := Failed (e : exn) | Ended (downloading extracting : ending) | Killed.

  (** The program, 293-308, with read_config, 60-73, and calculate_disk_space_needed,
      269-281. *)
  Definition main (ev : events) (w : world) : world * outcome :=
    match configuration ev with
    | None => (w, Failed RuntimeError)
    | Some c =>
      let required_space := inject_Z (Z.of_nat (List.length (remaining c w) * 6 + 10)) in
      if negb (Qle_bool required_space (free_space ev)) then (w, Failed RuntimeError)
      else
        let (w, d) := download_zips_in_parallel (download_rounds ev) c w in
        match d with
        | Stopped => (w, Killed)
        | _ =>
          let (w, u) := unzip_files_in_parallel (unzip_rounds ev) c w in
          match u with Stopped => (w, Killed) | _ => (w, Ended d u) end
        end
    end.

  (** Several runs one after the other. *)
  Definition runs (evs : list events) (w : world) : world := fold_left (fun w ev => fst (main ev w)) evs w.
End Run.

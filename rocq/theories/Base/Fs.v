(** A small file system, for modelling code that reads and writes files.
    A path is its components (splitting at "/" is not modelled; the paths here have no
    empty component).  Files have contents of a chosen type; links, permissions and
    disk space are left out. *)
From Coq Require Import List Bool String Ascii.
From Verif.Base Require Import Py.
Import ListNotations.
Local Open Scope string_scope.

Fixpoint loc_eqb (a b : list string) : bool :=
  match a, b with
  | [], [] => true
  | x :: a, y :: b => String.eqb x y && loc_eqb a b
  | _, _ => false
  end.

(** [a] is [b] or a folder above it. *)
Fixpoint above (a b : list string) : bool :=
  match a, b with
  | [], _ => true
  | x :: a, y :: b => String.eqb x y && above a b
  | _, _ => false
  end.

Inductive path := Abs (l : list string) | Rel (l : list string).

(** os.path.join: an absolute second part replaces the first. *)
Definition join (a b : path) : path :=
  match b with
  | Abs l => Abs l
  | Rel l => match a with Abs k => Abs (k ++ l) | Rel k => Rel (k ++ l) end
  end.

(** os.path.dirname *)
Definition dirname (p : path) : path :=
  match p with Abs l => Abs (removelast l) | Rel l => Rel (removelast l) end.

(** os.path.basename *)
Definition basename (p : path) : string :=
  match p with Abs l | Rel l => last l "" end.

Fixpoint walk (at_ : list string) (l : list string) : list string :=
  match l with
  | [] => at_
  | x :: l => walk (if String.eqb x "." then at_ else if String.eqb x ".." then removelast at_ else (at_ ++ [x])%list) l
  end.

Section Fs.
  Context {A : Type}.

  Record fs := Fs { files : list (list string * A); dirs : list (list string); cwd : list string }.

  Definition resolve (s : fs) (p : path) : list string :=
    match p with Abs l => walk [] l | Rel l => walk (cwd s) l end.

  (** An operation: the file system afterwards and the outcome. *)
  Definition io (B : Type) := fs -> fs * res B.
  Definition iret {B} (x : B) : io B := fun s => (s, Ok x).
  Definition ibind {B C} (a : io B) (f : B -> io C) : io C :=
    fun s => let (s, r) := a s in match r with Ok x => f x s | Err e => (s, Err e) end.
  Definition ilift {B} (r : res B) : io B := fun s => (s, r).
  (** try: a finally: f *)
  Definition ifinally {B} (a : io B) (f : io unit) : io B :=
    fun s => let (s, r) := a s in let (s, r') := f s in (s, match r' with Ok _ => r | Err e => Err e end).

  Definition isdir_at (s : fs) (l : list string) : bool :=
    match l with [] => true | _ => existsb (loc_eqb l) (dirs s) end.
  Definition isdir (p : path) : io bool := fun s => (s, Ok (isdir_at s (resolve s p))).
  Definition isfile_at (s : fs) (l : list string) : bool := dmem loc_eqb l (files s).
  Definition isfile (p : path) : io bool := fun s => (s, Ok (isfile_at s (resolve s p))).

  (** open(p, 'rb').read() *)
  Definition read_at (s : fs) (l : list string) : res A :=
    match dget loc_eqb l (files s) with Some b => Ok b | None => Err IOError end.
  Definition read (p : path) : io A := fun s => (s, read_at s (resolve s p)).

  (** open(p, 'wb').write(b): the folder must exist, and p must not be one. *)
  Definition write_at (s : fs) (l : list string) (b : A) : fs * res unit :=
    match l with
    | [] => (s, Err IOError)
    | _ => if isdir_at s (removelast l) && negb (isdir_at s l)
           then (Fs (dset loc_eqb l b (files s)) (dirs s) (cwd s), Ok tt) else (s, Err IOError)
    end.
  Definition write (p : path) (b : A) : io unit := fun s => write_at s (resolve s p) b.

  (** os.getcwd, os.chdir *)
  Definition getcwd : io path := fun s => (s, Ok (Abs (cwd s))).
  Definition chdir (p : path) : io unit :=
    fun s => if isdir_at s (resolve s p) then (Fs (files s) (dirs s) (resolve s p), Ok tt) else (s, Err OSError).

  (** A new folder at [l]. *)
  Definition mkdir_at (l : list string) : io unit := fun s => (Fs (files s) (l :: dirs s) (cwd s), Ok tt).

  (** shutil.rmtree *)
  Definition rmtree (p : path) : io unit :=
    fun s => let l := resolve s p in
             if isdir_at s l then
               (Fs (filter (fun f => negb (above l (fst f))) (files s)) (filter (fun d => negb (above l d)) (dirs s)) (cwd s), Ok tt)
             else (s, Err OSError).
End Fs.
Arguments fs : clear implicits.
Arguments io : clear implicits.

Declare Scope io_scope.
Delimit Scope io_scope with io.
Notation "'do*' x := a 'in' b" := (ibind a (fun x => b)) (at level 200, x pattern, right associativity) : io_scope.
Open Scope io_scope.

(** os.path.splitext of a file name: the last dot, unless only dots precede it. *)
Fixpoint last_dot (s : string) : option (string * string) :=
  match s with
  | EmptyString => None
  | String c t =>
      match last_dot t with
      | Some (r, e) => Some (String c r, e)
      | None => if Ascii.eqb c "."%char then Some ("", s) else None
      end
  end.
Fixpoint only_dots (s : string) : bool :=
  match s with EmptyString => true | String c t => Ascii.eqb c "."%char && only_dots t end.
Definition splitext (s : string) : string * string :=
  match last_dot s with
  | Some (r, e) => if only_dots r then (s, "") else (r, e)
  | None => (s, "")
  end.

(** os.makedirs, on the place the path leads to: the missing folders are made; OSError if
    there is something at the place, or if a file is in the way. *)
Fixpoint prefixes (l : list string) : list (list string) :=
  match l with [] => [] | x :: l => [x] :: map (cons x) (prefixes l) end.
Definition makedirs {A} (p : path) : io A unit :=
  fun s => let l := resolve s p in
           if isdir_at s l || existsb (isfile_at s) (prefixes l) then (s, Err OSError)
           else (Fs (files s) (filter (fun d => negb (isdir_at s d)) (prefixes l) ++ dirs s) (cwd s), Ok tt).

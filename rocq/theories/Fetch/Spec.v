(** What the downloader should do, in terms of the archives and files in the folder and of
    the requests to the server. *)
From Coq Require Import List Bool String Ascii Arith QArith.
From Verif.Base Require Import Py.
From Verif.Fetch Require Import Model.
Import ListNotations.
Local Open Scope string_scope.
Local Open Scope list_scope.

Definition occurs (x s : string) : Prop := exists a b, s = (a ++ x ++ b)%string.

(** A file name that is shown by "ls *.zip". *)
Definition zip_name (n : string) : Prop := (exists stem, n = (stem ++ ".zip")%string) /\ forall r, n <> ("." ++ r)%string.

(** stem.zip without another .zip or a .cache in it. *)
Definition plain (n : string) : Prop :=
  exists stem, n = (stem ++ ".zip")%string /\ (forall r, n <> ("." ++ r)%string) /\ ~ occurs ".zip" stem /\ ~ occurs ".cache" stem.

(** The archive is there; its mark is there. *)
Definition present (n : string) (w : world) : Prop := content [n] w <> None.
Definition marked (n : string) (w : world) : Prop :=
  exists stem, n = (stem ++ ".zip")%string /\ content [".cache"; (stem ++ ".cache")%string] w <> None.

(** How often an archive was requested. *)
Definition times (n : string) (w : world) : nat := count_occ string_dec (requests w) n.

(** A folder: a name occurs once. *)
Definition folder (w : world) : Prop := NoDup (map fst (files w)).

(** Archives do not contain archives at their top level, nor a .cache folder. *)
Definition harmless (unzip : string -> list (path * string) * bool) : Prop :=
  forall data p x, In (p, x) (fst (unzip data)) -> (forall n, p = [n] -> ~ zip_name n) /\ (forall r, p <> ".cache" :: r).

(** The archive can be extracted. *)
Definition valid (unzip : string -> list (path * string) * bool) (data : string) : Prop := snd (unzip data) = true.
(** Its members are in the folder. *)
Definition unpacked (unzip : string -> list (path * string) * bool) (data : string) (w : world) : Prop :=
  forall p x, In (p, x) (fst (unzip data)) -> content p w <> None.

(** The whole body of an answer; an answer that is noticed to be none. *)
Definition whole (r : reply) (data : string) : Prop := exists l chunks, r = Body l chunks true /\ data = String.concat "" chunks.
Definition noticed (r : reply) : Prop := match r with Body _ _ fine => fine = false | _ => True end.

(** The server sends this archive in one of the three rounds of the run. *)
Definition sent (ev : events) (n data : string) : Prop := exists j, (j < 3)%nat /\ whole (replies (download_rounds ev j) n) data.

(** An error that happens while the archive is being extracted, not after it. *)
Definition retried (unzip : string -> list (path * string) * bool) (error : option nat) (data : string) : Prop :=
  match error with None => True | Some k => (k <= S (List.length (fst (unzip data))))%nat end.
(** The archive can be extracted and one of the three rounds does it without an error. *)
Definition extractable (unzip : string -> list (path * string) * bool) (ev : events) (n data : string) : Prop :=
  valid unzip data /\
  exists j, (j < 3)%nat /\ errors (unzip_rounds ev j) n = None /\ forall i, (i < j)%nat -> retried unzip (errors (unzip_rounds ev i) n) data.
(** Of the three answers the ones that are not noticed to fail are extractable, and there
    is one. *)
Definition fetchable (unzip : string -> list (path * string) * bool) (ev : events) (n : string) : Prop :=
  (exists data, sent ev n data) /\ forall data, sent ev n data -> extractable unzip ev n data.
(** The names of the archives: inputs and ground truth. *)
Definition wanted (c : config) : list string := training_input c ++ training_ground_truth c.
(** A name shown by "ls .cache/*.cache". *)
Definition mark_name (x : string) : Prop := (exists stem, x = (stem ++ ".cache")%string) /\ forall r, x <> ("." ++ r)%string.
(** Enough space for the archives that are neither there nor marked: 6 GB each and 10. *)
Definition enough_space (ev : events) (c : config) : Prop := (inject_Z (Z.of_nat (6 * List.length (wanted c) + 10)) <= free_space ev)%Q.

(** * FileReader::read when exceptions are caught: the file handle *)
From Verif Require Export ReaderModel.

(** The members of a reader, with the state of the file handle [fid_] between two calls (filereader.hpp:48-50):
    [None] closed, [Some s] still open, because the last call of read() was left by an exception before close() (filereader.cpp:24). *)
Record held (M : Type) := mkHeld { h_name : str; h_pos : option nat; h_data : M; h_open : option stream }.
Arguments mkHeld {M}. Arguments h_name {M}. Arguments h_pos {M}. Arguments h_data {M}. Arguments h_open {M}.

(** filereader.cpp:29-35 open() of an existing file: a closed [fid_] is opened at the beginning of the contents and its flags are
    cleared; std::ifstream::open on a handle that is open fails: failbit is set, the handle keeps its old file and position *)
Definition opened (content : str) (handle : option stream) : stream :=
  match handle with None => mkStream content 0 false false | Some s => set_fail s end.

(** filereader.cpp:14-25: one call of read(), how it ends and the object afterwards.
    Simplification: a section reader that throws may have changed members and moved in the file; the members and the stream
    an exception leaves are arbitrary here ([rc_thrown]), which covers what the code does. *)
Inductive read_call {M} (files : str -> option str) (headers : smap (list str)) (rd : nat -> str -> fstate -> M -> outcome (fstate * M)) (fuel : nat) (R : held M) :
    outcome unit -> held M -> Prop :=
| rc_missing : files (h_name R) = None -> read_call files headers rd fuel R (Throw InvalidArgument) R
| rc_done content f m : files (h_name R) = Some content ->
    read_loop headers rd fuel (mkF (opened content (h_open R)) (h_pos R)) [] (h_data R) = Ok (f, m) ->
    read_call files headers rd fuel R (Ok tt) (mkHeld (h_name R) (pos_ f) m None)
| rc_thrown content e s pos m : files (h_name R) = Some content ->
    read_loop headers rd fuel (mkF (opened content (h_open R)) (h_pos R)) [] (h_data R) = Throw e ->
    read_call files headers rd fuel R (Throw e) (mkHeld (h_name R) pos m (Some s)).

Section Readers.
Context (N : nums).
(** LogReader and PunReader objects *)
Definition log_call files fuel := read_call files log_headers (log_section N) fuel.
(** the same for a PunReader (punreader.cpp:22-30) *)
Definition pun_call files fuel := read_call files pun_headers (pun_section N) fuel.
(** the object as seen by the functions above *)
Definition log_held (r : LogReader N) : held (logd N) := mkHeld (lr_name N r) (lr_pos N r) (lr_data N r) None.
(** the same for a PunReader *)
Definition pun_held (r : PunReader N) : held (smap (mat (num N))) := mkHeld (pr_name N r) (pr_pos N r) (coefs N r) None.
(** and back *)
Definition log_object (R : held (logd N)) : LogReader N := mkLogReader N (h_name R) (h_pos R) (h_data R).
(** and back *)
Definition pun_object (R : held (smap (mat (num N)))) : PunReader N := mkPunReader N (h_name R) (h_pos R) (h_data R).
End Readers.

(** * Specification vocabulary for property objects *)
From Verif Require Export ArgsSpec PropertyModel.
Open Scope Z_scope.

(** an extension: nothing, or a dot followed by text without dots *)
Definition extension (e : str) : Prop := e = [] \/ exists t, e = "."%char :: t /\ ~ In "."%char t.
(** the four options the property computes *)
Definition computed : list str := [$"SISTER_FILE_NAME"; $"SISTER_FILE_PATH"; $"SISTER_FILE_PATH_NAME"; $"SISTER_FILE_EXISTS"].
(** what they say after the check of dir/core.ext with the extensions [exts] *)
Definition describes (E : env) (p : prop (list str)) (dir core : str) (exts : list str) : Prop :=
  getPropOption p $"SISTER_FILE_NAME" = Ok (map (fun e => core ++ e) exts) /\
  getPropOption p $"SISTER_FILE_PATH" = Ok (map (fun _ => dir) exts) /\
  getPropOption p $"SISTER_FILE_PATH_NAME" = Ok (map (fun e => dir ++ core ++ e) exts) /\
  getPropOption p $"SISTER_FILE_EXISTS" = Ok (map (fun e => if file_exists E (dir ++ core ++ e) then $"true" else $"false") exts).
(** a call that asks for other extensions, and they are well formed *)
Definition asks_for (c : sister_call) (exts : list str) : Prop :=
  match c with
  | SetOne o v => o = $"ALLOWED_SISTER_FILE_EXT" /\ extension v /\ exts = [v]
  | SetMany o vs => o = $"ALLOWED_SISTER_FILE_EXT" /\ Forall extension vs /\ exts = vs
  | CheckPath _ => False
  end.
Definition is_check (c : sister_call) : Prop := match c with CheckPath _ => True | _ => False end.

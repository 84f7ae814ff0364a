(** * The overloads of property objects that argument objects do not call *)
From Verif Require Export ArgsModel.
Open Scope Z_scope.

(** propertyswitch.cpp:16-26, propertyswitch.hpp:19-22: propValid(int) *)
Definition switch_propValid_int (val : Z) (p : prop str) : outcome (prop str) :=
  if (val <? 0) || (1 <? val) then Throw InvalidArgument else Ok p.
(** propertyfileext.cpp:16-21 *)
Definition PropertyFileExt_str (ext : str) : outcome (prop (list str)) :=
  ext_checkExt ext ;;; Ok (setPropOption_ $"ALLOWED_FILE_EXT" [ext] (mkProp PFileExt [])).
(** propertyfileext.cpp:68-71 *)
Definition ext_setPropOption_set (option : str) (vars : list str) (p : prop (list str)) : outcome (prop (list str)) :=
  setPropOption option vars p.
(** propertyfileext.cpp:73-77 *)
Definition ext_setPropOption_str (option var : str) (p : prop (list str)) : outcome (prop (list str)) :=
  setPropOption option [var] p.
(** propertysisterfile.cpp:36-46 (private; nothing calls it) *)
Definition sister_extSupported (ext : str) (p : prop (list str)) : outcome unit :=
  sister_checkExt ext ;;;
  exts <- getPropOption p $"ALLOWED_SISTER_FILE_EXT" ;;
  if existsb (fun e => str_eqb e ext) exts then Ok tt else Throw InvalidArgument.
(** propertysisterfile.cpp:59-78 *)
Definition sister_setPropOption_str (option var : str) (p : prop (list str)) : outcome (prop (list str)) :=
  if str_eqb option $"ALLOWED_SISTER_FILE_EXT" then
    sister_checkExt var ;;; Ok (setPropOption_ option [var] p)
  else if str_eqb option $"SISTER_FILE_EXISTS" || str_eqb option $"SISTER_FILE_NAME" ||
          str_eqb option $"SISTER_FILE_PATH" || str_eqb option $"SISTER_FILE_PATH_NAME" then Throw InvalidArgument
  else Throw InvalidArgument.

(** a program that calls the public functions of a PropertySisterFile (propertysisterfile.hpp:19-23) *)
Inductive sister_call :=
| SetOne (option var : str)
| SetMany (option : str) (vars : list str)
| CheckPath (path : str).
(** one call *)
Definition sister_does (E : env) (c : sister_call) (p : prop (list str)) : outcome (prop (list str)) :=
  match c with
  | SetOne o v => sister_setPropOption_str o v p
  | SetMany o vs => sister_setPropOption_vec o vs p
  | CheckPath path => sister_propValid E path p
  end.
(** a history of calls; exceptions are caught by the caller (all three functions throw before they change anything) *)
Inductive sister_history (E : env) : prop (list str) -> list sister_call -> prop (list str) -> Prop :=
| sh_nil p : sister_history E p [] p
| sh_ok p c p1 l p2 : sister_does E c p = Ok p1 -> sister_history E p1 l p2 -> sister_history E p (c :: l) p2
| sh_caught p c e l p2 : sister_does E c p = Throw e -> sister_history E p l p2 -> sister_history E p (c :: l) p2.

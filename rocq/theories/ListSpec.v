(** * Specification vocabulary for C95: arguments and what can be done to them *)
From Verif Require Export ListModel OptionSpec.
Open Scope Z_scope.

(** the argument objects of type [k] a program can have: new ones, and what the
    public member functions make of them, exceptions caught *)
Inductive an_argument (E : env) : akind -> arg E -> Prop :=
| new_int : an_argument E AInt (ArgumentInt E)
| new_double : an_argument E ADouble (ArgumentDouble E)
| new_string : an_argument E AString (ArgumentString E)
| new_switch : an_argument E ASwitch (ArgumentSwitch E)
| new_file : an_argument E AFile (ArgumentFile E)
| set_int k a pr o v a' : an_argument E k a -> setArgPropertyOpt_int E pr o v a = Ok a' -> an_argument E k a'
| set_dbl k a pr o v a' : an_argument E k a -> setArgPropertyOpt_dbl E pr o v a = Ok a' -> an_argument E k a'
| set_str k a pr o v a' : an_argument E k a -> setArgPropertyOpt_str E pr o v a = Ok a' -> an_argument E k a'
| set_set k a pr o v a' : an_argument E k a -> setArgPropertyOpt_set E pr o v a = Ok a' -> an_argument E k a'
| set_vec k a pr o v a' : an_argument E k a -> setArgPropertyOpt_vec E pr o v a = Ok a' -> an_argument E k a'
| valid_int a v : an_argument E AInt a -> an_argument E AInt (fst (argValid_int_on v a))
| valid_dbl a v : an_argument E ADouble a -> an_argument E ADouble (fst (argValid_dbl_on v a))
| valid_str k a v : an_argument E k a -> In k [AString; ASwitch; AFile] -> an_argument E k (fst (argValid_str_on v a)).

(** the properties of each type of argument and their options *)
Definition properties_of (k : akind) : list (str * list str) :=
  match k with
  | AInt => [($"PROPERTY_INT", [$"MIN"; $"MAX"])]
  | ADouble => [($"PROPERTY_DOUBLE", [$"MIN"; $"MAX"])]
  | AString => [($"PROPERTY_STRING", [$"MIN_LENGTH"; $"MAX_LENGTH"]); ($"PROPERTY_STRING_CHOICE", [$"STRING_CHOICE_ENFORCED"; $"STRING_CHOICES"])]
  | ASwitch => [($"PROPERTY_SWITCH", [$"DEFAULT"])]
  | AFile => [($"PROPERTY_FILE_EXIST", [$"FILE_MUST_EXIST"; $"FILE_DOES_EXIST"]); ($"PROPERTY_FILE_EXT", [$"ALLOWED_FILE_EXT"]);
              ($"PROPERTY_SISTER_FILE", [$"ALLOWED_SISTER_FILE_EXT"; $"SISTER_FILE_NAME"; $"SISTER_FILE_PATH"; $"SISTER_FILE_PATH_NAME"; $"SISTER_FILE_EXISTS"])]
  end.

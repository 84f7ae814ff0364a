(** * argumentobject.hpp: the functions that list the properties and options of an argument *)
From Verif Require Export ArgsModel ParserStateModel.
Open Scope Z_scope.

Section Lists.
Context (E : env).
(** one of the loops of argumentobject.hpp:90-107 *)
Definition prop_names {T} (ps : list (prop T)) : list str := map (fun p => prop_name (p_kind p)) ps.
(** argumentobject.hpp:88-111 *)
Definition getProperties (a : arg E) : list str :=
  let props := prop_names (a_int E a) ++ prop_names (a_dbl E a) ++ prop_names (a_size E a) ++
               prop_names (a_str E a) ++ prop_names (a_set E a) ++ prop_names (a_vec E a) in
  if (length props =? 0)%nat then props ++ [$"NO_PROPERTIES"] else props.
(** one of the loops of argumentobject.hpp:115-138 *)
Definition prop_options {T} (ps : list (prop T)) : list str := concat (map (fun p => prop_opts (p_kind p)) ps).
(** argumentobject.hpp:113-141 *)
Definition getPropertyOptions (a : arg E) : list str :=
  let ops := prop_options (a_int E a) ++ prop_options (a_dbl E a) ++ prop_options (a_size E a) ++
             prop_options (a_str E a) ++ prop_options (a_set E a) ++ prop_options (a_vec E a) in
  if (length ops =? 0)%nat then ops ++ [$"NO_OPTIONS"] else ops.
(** one of the loops of argumentobject.hpp:145-198 *)
Definition values_in {T} (text : T -> str) (ps : list (prop T)) (opts_values : smap str) : outcome (smap str) :=
  for_each ps (fun p m => for_each (prop_opts (p_kind p)) (fun opt m =>
    value <- getPropOption p opt ;; Ok (m_set opt (text value) m)) m) opts_values.
(** argumentobject.hpp:143-200 *)
Definition getAllPropertyValues (a : arg E) : outcome (smap str) :=
  m <- values_in dec (a_int E a) [] ;;
  m <- values_in (d_text E) (a_dbl E a) m ;;
  m <- values_in dec (a_size E a) m ;;
  m <- values_in (fun s => s) (a_str E a) m ;;
  m <- values_in join (a_set E a) m ;;
  values_in join (a_vec E a) m.
End Lists.

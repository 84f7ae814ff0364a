(** * Model of src/libcatnip/io/file_readers

    A file is the list of its characters; [std::ifstream] is a position in it
    with eofbit and failbit (badbit is not modelled: reading never fails for
    other reasons than the end of the file).  [std::istringstream] likewise.
    The behaviour of the stream functions is that of the C++11 standard
    (libstdc++): in particular a stream that is not good() leaves the string
    argument of getline and >> unchanged.

    What the code takes from outside: [double] with multiplication, [stod],
    [atof], [pow(10, x)] ([nums]) and the files ([str -> option str]; a name
    that exists can be opened).  Log messages are omitted.  Loops over the file
    take fuel. *)
From Verif Require Export MatrixModel.
From Verif Require Export ArgsModel StrModel.
Open Scope Z_scope.

(** ** Streams *)
Record stream := mkStream { s_all : str; s_pos : nat; s_eof : bool; s_fail : bool }.
(** [s.good()] *)
Definition s_good (s : stream) : bool := negb (s_eof s) && negb (s_fail s).
(** [s.setstate(failbit)] *)
Definition set_fail (s : stream) : stream := mkStream (s_all s) (s_pos s) (s_eof s) true.
(** [getline(s, line)]: the new value of [line] and the new stream *)
Definition s_getline (s : stream) (line : str) : str * stream :=
  if negb (s_good s) then (line, set_fail s)
  else match skipn (s_pos s) (s_all s) with
       | [] => ([], mkStream (s_all s) (s_pos s) true true)
       | rest =>
         let l := take_while (fun c => negb (Ascii.eqb c nl)) rest in
         if (length l <? length rest)%nat then (l, mkStream (s_all s) (s_pos s + length l + 1) false false)
         else (l, mkStream (s_all s) (s_pos s + length l) true false)
       end.
(** [s.tellg()]; [None] is -1 *)
Definition s_tellg (s : stream) : option nat * stream :=
  if s_good s then (Some (s_pos s), s) else (None, set_fail s).
(** [s.seekg(p)] *)
Definition s_seekg (p : option nat) (s : stream) : stream :=
  if s_fail s then mkStream (s_all s) (s_pos s) false true
  else match p with
       | Some k => mkStream (s_all s) k false false
       | None => mkStream (s_all s) (s_pos s) false true
       end.

(** [istringstream] *)
Record istr := mkIstr { i_rest : str; i_eof : bool; i_fail : bool }.
(** [istringstream i(line)] *)
Definition iss (line : str) : istr := mkIstr line false false.
(** [i >> w]: the new value of [w] and the new stream *)
Definition next (i : istr) (w : str) : str * istr :=
  if i_eof i || i_fail i then (w, mkIstr (i_rest i) (i_eof i) true)
  else match extract (i_rest i) with
       | None => (w, mkIstr [] true true)
       | Some (x, r) => (x, mkIstr r (str_eqb r []) false)
       end.

(** the numbers the readers produce, and the conversions stod and atof (library) *)
Record nums := mkNums {
  num : Type;                          (* double *)
  n_zero : num;                        (* 0 *)
  n_mul : num -> num -> num;
  n_stod : str -> outcome num;         (* std::stod *)
  n_atof : str -> num;                 (* atof *)
  n_pow10 : num -> num                 (* pow(10.0, x) *)
}.

(** filereader.hpp:48-49: the members [fid_] and [pos_] *)
Record fstate := mkF { fid : stream; pos_ : option nat }.
(** [getline(fid_, line)] *)
Definition getl (f : fstate) (line : str) : str * fstate :=
  let '(l, s) := s_getline (fid f) line in (l, mkF s (pos_ f)).
(** [pos_ = fid_.tellg()] *)
Definition tell (f : fstate) : fstate := let '(p, s) := s_tellg (fid f) in mkF s p.
(** [fid_.seekg(pos_)] *)
Definition seek (f : fstate) : fstate := mkF (s_seekg (pos_ f) (fid f)) (pos_ f).

(** ** filereader.cpp *)
(** filereader.cpp:64-70 fileExt_ *)
Definition fileExt_ (fileName : str) : outcome str :=
  p <- lastStringInPath fileName ;;
  let path := trimmed p in
  match find $"." path with
  | None => Throw InvalidArgument
  | Some index => substr1 path (Z.of_nat index)
  end.
(** filereader.cpp:46-62 checkSections_, given the tags of sectionHeaders_ and sectionReaders_ *)
Definition checkSections_ (headers : smap (list str)) (readers : list str) : outcome unit :=
  for_each (set_of (map fst headers ++ readers))
    (fun t _ => if negb (existsb (str_eqb t) readers) then Throw RuntimeError
                else if negb (m_has t headers) then Throw RuntimeError else Ok tt) tt.
(** filereader.cpp:82-91 startSection_; no tag is the empty string *)
Fixpoint startSection_ (headers : smap (list str)) (line : str) : option str :=
  match headers with
  | [] => None
  | (tag, hs) :: t => if existsb (foundSubStrInStr line) hs then Some tag else startSection_ t line
  end.
(** filereader.cpp:16-24: the loop of read(); [rd] are the section readers (77-80), [M] the
    members of the derived class *)
Fixpoint read_loop {M} (headers : smap (list str)) (rd : nat -> str -> fstate -> M -> outcome (fstate * M))
    (fuel : nat) (f : fstate) (line : str) (m : M) : outcome (fstate * M) :=
  match fuel with
  | O => NoFuel
  | S n =>
    let '(line, f) := getl f line in
    if s_fail (fid f) then Ok (f, m)
    else r <- match startSection_ headers line with Some tag => rd n tag f m | None => Ok (f, m) end ;;
         let '(f, m) := r in
         read_loop headers rd n (tell f) line m
  end.
(** filereader.cpp:14-25 read, 29-35 open (which clears the flags), 37-40 close: the members and pos_ afterwards *)
Definition read {M} (files : str -> option str) (headers : smap (list str)) (rd : nat -> str -> fstate -> M -> outcome (fstate * M))
    (fuel : nat) (fileName : str) (pos : option nat) (m : M) : outcome (option nat * M) :=
  match files fileName with
  | None => Throw InvalidArgument
  | Some content =>
    r <- read_loop headers rd fuel (mkF (mkStream content 0 false false) pos) [] m ;;
    Ok (pos_ (fst r), snd r)
  end.

Section Readers.
Context (N : nums).

(** ** logreader.cpp *)
(** logreader.cpp:42-59, for one item [s]; every round shortens [s] *)
Fixpoint glue_loop (fuel : nat) (s : str) (pos : option nat) (items2 : list str) : outcome (list str) :=
  match pos with
  | None => Ok items2
  | Some p =>
    match fuel with
    | O => NoFuel
    | S n =>
      let '(token, s, p) :=
        if (p =? 0)%nat then
          match find $"-" (skipn 1 s) with
          | None => (s, skipn 1 s, length s)
          | Some q => (firstn (q + 1) s, skipn 1 s, q)
          end
        else (firstn p s, s, p) in
      let s := skipn p s in
      glue_loop n s (find $"-" s) (items2 ++ [token])
    end
  end.
(** logreader.cpp:20-65 *)
Definition splitStEnergies (line : str) : outcome (list str) :=
  let items := splitSt line in
  if (length items =? 9)%nat then Ok items
  else for_each (skipn 4 items) (fun s items2 =>
         match find $"-" s with
         | None => Ok (items2 ++ [s])
         | Some p => glue_loop (S (length s)) s (Some p) items2
         end) (firstn 4 items).

(** logreader.hpp:48-60: the data members *)
Record logd := mkLog {
  homoLevel : smap Z;
  orb_ : list ((Z * str) * smap (list (num N)));
  S_ : option (mat (num N));              (* [None]: not initialised *)
  OREnergies : smap (list (num N));
  xyz : list (list (num N)) }.

(** logreader.cpp:72-79, sorted by tag *)
Definition log_headers : smap (list str) :=
  [($"AOFunction", [$"     Gross orbital populations:"]);
   ($"Coord", [$"Center     Atomic      Atomic"; $"Center     Atomic     Atomic"]);
   ($"OEAlpha", [$" Alpha  occ. eigenvalues --"]);
   ($"OEBeta", [$"  Beta  occ. eigenvalues --"]);
   ($"Overlap", [$" *** Overlap ***"])].
(** logreader.cpp:81-85 *)
Definition log_readers : list str := [$"AOFunction"; $"Coord"; $"OEAlpha"; $"OEBeta"; $"Overlap"].

(** [orb_[k][label] = v] *)
Definition key_eqb (a b : Z * str) : bool := (fst a =? fst b) && str_eqb (snd a) (snd b).
(** std::pair<int, string> comparison (library), logreader.hpp:13-15 *)
Definition key_ltb (a b : Z * str) : bool := (fst a <? fst b) || ((fst a =? fst b) && str_ltb (snd a) (snd b)).
(** logreader.cpp:131, 151: [orb_[k][label] = v] in a std::map of std::map *)
Fixpoint o_set {V} (k : Z * str) (label : str) (v : V) (m : list ((Z * str) * smap V)) : list ((Z * str) * smap V) :=
  match m with
  | [] => [(k, [(label, v)])]
  | (k', l) :: t => if key_eqb k k' then (k', m_set label v l) :: t
                    else if key_ltb k k' then (k, [(label, v)]) :: m else (k', l) :: o_set k label v t
  end.

(** logreader.cpp:126-130 (= 145-149); every round takes a character or reaches the end *)
Fixpoint ao_values (fuel : nat) (i : istr) (orbVals : list (num N)) : outcome (list (num N)) :=
  match fuel with
  | O => NoFuel
  | S n => if i_eof i then Ok orbVals
           else let '(w, i) := next i [] in
                v <- n_stod N w ;; ao_values n i (orbVals ++ [v])
  end.
(** logreader.cpp:110 *)
Definition ao_end : str := $"         Condensed to atoms".
(** logreader.cpp:139-165: the rows that continue an atom; [AOnum] is never used *)
Fixpoint ao_inner (fuel : nat) (line elemType2 orbType : str) (atom_num : Z) (elemType : str) (f : fstate) (orb : list ((Z * str) * smap (list (num N))))
  : outcome (str * bool * fstate * list ((Z * str) * smap (list (num N)))) :=
  match fuel with
  | O => NoFuel
  | S n =>
    if isAlphabetical elemType2 then Ok (line, false, f, orb)
    else
      let '(_, i) := next (iss line) [] in
      let '(orbType, i) := next i orbType in
      orbVals <- ao_values (S (S (length line))) i [] ;;
      let orb := o_set (atom_num, elemType) orbType orbVals orb in
      let '(line, f) := getl f line in
      let '(e, j) := next (iss line) elemType2 in
      let '(e, j) := next j e in
      let '(e, _) := next j e in
      let elemType2 := trim e in
      if foundSubStrInStr line ao_end then Ok (line, true, f, orb)
      else ao_inner n line elemType2 orbType atom_num elemType f orb
  end.
(** [line.at(k)] *)
Definition sat (line : str) (k : Z) : outcome ascii := vat line k.
(** logreader.cpp:115-172 *)
Fixpoint ao_outer (fuel : nat) (line : str) (atom_num : Z) (f : fstate) (orb : list ((Z * str) * smap (list (num N))))
  : outcome (fstate * list ((Z * str) * smap (list (num N)))) :=
  match fuel with
  | O => NoFuel
  | S n =>
    let '(_, i) := next (iss line) [] in
    let '(elemType, i) := next i [] in
    let '(elemType, i) := next i elemType in
    let '(orbType, i) := next i [] in
    orbVals <- ao_values (S (S (length line))) i [] ;;
    let orb := o_set (atom_num, elemType) orbType orbVals orb in
    let '(line, f) := getl f line in
    c9 <- sat line 9 ;; c10 <- sat line 10 ;;
    r <- ao_inner n line (trim [c9; c10]) orbType atom_num elemType f orb ;;
    let '(line, sectionEnd, f, orb) := r in
    if sectionEnd || foundSubStrInStr line ao_end then Ok (f, orb)
    else ao_outer n line (atom_num + 1) f orb
  end.
(** logreader.cpp:105-176 *)
Definition AOFunctionSectionReader (fuel : nat) (f : fstate) (d : logd) : outcome (fstate * logd) :=
  let '(line, f) := getl f [] in
  let '(line, f) := getl f line in
  r <- ao_outer fuel line 1 f (orb_ d) ;;
  let '(f, orb) := r in
  Ok (f, mkLog (homoLevel d) orb (S_ d) (OREnergies d) (xyz d)).

(** logreader.cpp:207-210 (= 248-252); the two calls of stod in the order of the text *)
Definition coef_of (s_coef : str) : outcome (num N) :=
  val <- grabStrBeforeFirstOccurance s_coef $"D" ;;
  exp <- grabStrAfterFirstOccurance s_coef $"D" ;;
  a <- n_stod N val ;; b <- n_stod N exp ;; Ok (n_mul N a (n_pow10 N b)).
(** logreader.cpp:205-211 *)
Fixpoint ov_values (fuel : nat) (i : istr) (row : list (num N)) : outcome (list (num N)) :=
  match fuel with
  | O => NoFuel
  | S n => if i_eof i then Ok row
           else let '(w, i) := next i [] in
                v <- coef_of w ;; ov_values n i (row ++ [v])
  end.
(** logreader.cpp:193-214 *)
Fixpoint ov_first (fuel : nat) (f : fstate) (line countC : str) (countCoef : Z) (first_coefs : list (list (num N)))
  : outcome (fstate * str * Z * list (list (num N))) :=
  match fuel with
  | O => NoFuel
  | S n =>
    let '(line, f) := getl f line in
    let '(countC, i) := next (iss line) countC in
    countCint <- stoi countC ;;
    if negb (countCint =? countCoef + 1) then Ok (f, line, countCoef, first_coefs)
    else row <- ov_values (S (S (length line))) i [] ;;
         ov_first n f line countC (countCoef + 1) (first_coefs ++ [row])
  end.
(** logreader.cpp:217-229 *)
Definition ov_fill (first_coefs : list (list (num N))) (m : mat (num N)) : outcome (mat (num N)) :=
  p <- for_each first_coefs (fun row (p : Z * mat (num N)) =>
         let '(r, m) := p in
         q <- for_each row (fun val (q : Z * mat (num N)) =>
                let '(c, m) := q in
                m <- set_elem2 val r c m ;;
                m <- (if negb (r =? c) then set_elem2 val c r m else Ok m) ;;
                Ok (c + 1, m)) (1, m) ;;
         Ok (r + 1, snd q)) (1, m) ;;
  Ok (snd p).
(** logreader.cpp:247-261; [row] is sectionCoef + 1, [col] is currentSectionStart + localCoefCount *)
Fixpoint ov_row (fuel : nat) (i : istr) (row col : Z) (m : mat (num N)) : outcome (mat (num N)) :=
  match fuel with
  | O => NoFuel
  | S n => if i_eof i then Ok m
           else let '(w, i) := next i [] in
                v <- coef_of w ;;
                m <- set_elem2 v row col m ;;
                m <- (if negb (row =? col) then set_elem2 v col row m else Ok m) ;;
                ov_row n i row (col + 1) m
  end.
(** logreader.cpp:178-271.  231-267: round [section] has currentSectionStart = 5 * (section - 1) *)
Definition OverlapSectionReader (fuel : nat) (f : fstate) (d : logd) : outcome (fstate * logd) :=
  let '(line, f) := getl f [] in
  r <- ov_first fuel f line [] 0 [] ;;
  let '(f, line, countCoef, first_coefs) := r in
  m <- Matrix_new2 (n_zero N) countCoef countCoef ;;
  m <- ov_fill first_coefs m ;;
  let sectionReads := countCoef / 5 + (if 0 <? countCoef mod 5 then 1 else 0) in
  r <- for_up 2 sectionReads (fun section (p : fstate * str * mat (num N)) =>
         let start := 5 * (section - 1) in
         q <- for_up start (countCoef - 1) (fun sectionCoef (q : fstate * str * mat (num N)) =>
                let '(f, line, m) := q in
                let '(line, f) := getl f line in
                let '(_, i) := next (iss line) [] in
                m <- ov_row (S (S (length line))) i (sectionCoef + 1) (start + 1) m ;;
                Ok (f, line, m)) p ;;
         let '(f, line, m) := q in
         let '(line, f) := getl f line in
         Ok (f, line, m)) (f, line, m) ;;
  let '(f, line, m) := r in
  Ok (f, mkLog (homoLevel d) (orb_ d) (Some m) (OREnergies d) (xyz d)).

(** logreader.cpp:280-301: the energies, the number of occupied ones *)
Fixpoint oe_loop (fuel : nat) (orb_type : str) (f : fstate) (line : str) (oe : list (num N)) (homo : Z) : outcome (fstate * list (num N) * Z) :=
  match fuel with
  | O => NoFuel
  | S n =>
    let '(line, f) := getl f line in
    if s_fail (fid f) then Ok (f, oe, homo)
    else
      let occFound := foundSubStrInStr line ($" " ++ orb_type ++ $"  occ. eigenvalues -- ") in
      let virtFound := foundSubStrInStr line ($" " ++ orb_type ++ $" virt. eigenvalues -- ") in
      if occFound || virtFound then
        vec_str <- splitStEnergies line ;;
        let es := map (n_atof N) (skipn 4 vec_str) in
        oe_loop n orb_type (tell f) line (oe ++ es) (if occFound then homo + Z.of_nat (length es) else homo)
      else Ok (f, oe, homo)
  end.
(** logreader.cpp:273-305, with the seekg of 310 / 317 *)
Definition ReadOrbEnergies (fuel : nat) (orb_type : str) (f : fstate) (d : logd) : outcome (fstate * logd) :=
  r <- oe_loop fuel orb_type (seek f) [] [] 0 ;;
  let '(f, oe, homo) := r in
  Ok (seek f, mkLog (m_set orb_type homo (homoLevel d)) (orb_ d) (S_ d) (m_set orb_type oe (OREnergies d)) (xyz d)).

(** logreader.cpp:331-333: 35 + 34 dashes *)
Definition coord_end : str := $"---------------------------------------------------------------------".
(** logreader.cpp:341-347 *)
Fixpoint coord_loop (fuel : nat) (f : fstate) (line : str) (X Y Z : list (num N)) : outcome (fstate * list (list (num N))) :=
  match fuel with
  | O => NoFuel
  | S n =>
    if foundSubStrInStr line coord_end then Ok (f, [X; Y; Z])
    else
      let vec_str := splitSt line in
      w <- vat vec_str 3 ;; x <- n_stod N w ;;
      w <- vat vec_str 4 ;; y <- n_stod N w ;;
      w <- vat vec_str 5 ;; z <- n_stod N w ;;
      let '(line, f) := getl f line in
      coord_loop n f line (X ++ [x]) (Y ++ [y]) (Z ++ [z])
  end.
(** logreader.cpp:321-353 *)
Definition CoordSectionReader (fuel : nat) (f : fstate) (d : logd) : outcome (fstate * logd) :=
  let '(line, f) := getl f [] in
  let '(line, f) := getl f line in
  let '(line, f) := getl f line in
  r <- coord_loop fuel f line [] [] [] ;;
  let '(f, c) := r in
  Ok (f, mkLog (homoLevel d) (orb_ d) (S_ d) (OREnergies d) c).

(** logreader.cpp:81-85 and filereader.cpp:77-80 *)
Definition log_section (fuel : nat) (tag : str) (f : fstate) (d : logd) : outcome (fstate * logd) :=
  if str_eqb tag $"AOFunction" then AOFunctionSectionReader fuel f d
  else if str_eqb tag $"Overlap" then OverlapSectionReader fuel f d
  else if str_eqb tag $"OEAlpha" then ReadOrbEnergies fuel $"Alpha" f d
  else if str_eqb tag $"OEBeta" then ReadOrbEnergies fuel $"Beta" f d
  else CoordSectionReader fuel f d.

(** a LogReader object *)
Record LogReader := mkLogReader { lr_name : str; lr_pos : option nat; lr_data : logd }.
(** logreader.cpp:67-70, 90-95 *)
Definition LogReader_new (fileName : str) : outcome LogReader :=
  ext <- fileExt_ fileName ;;
  if negb (str_eqb ext $".log") then Throw InvalidArgument
  else checkSections_ log_headers log_readers ;;;
       Ok (mkLogReader fileName (Some O) (mkLog [] [] None [] [])).
(** FileReader::read *)
Definition log_read (files : str -> option str) (fuel : nat) (r : LogReader) : outcome LogReader :=
  p <- read files log_headers log_section fuel (lr_name r) (lr_pos r) (lr_data r) ;;
  Ok (mkLogReader (lr_name r) (fst p) (snd p)).
(** logreader.hpp:21-30, logreader.cpp:97-103.  [std::map::at] throws out_of_range. *)
Definition getOverlapMatrix (r : LogReader) : outcome (mat (num N)) :=
  match S_ (lr_data r) with Some m => Ok m | None => Undef Uninitialised end.
(** logreader.hpp:22-24 *)
Definition getOE (r : LogReader) (orb_type : str) : outcome (list (num N)) :=
  match m_find orb_type (OREnergies (lr_data r)) with Some v => Ok v | None => Throw OutOfRange end.
(** logreader.hpp:25-27 *)
Definition getHOMOLevel (r : LogReader) (orb_type : str) : outcome Z :=
  match m_find orb_type (homoLevel (lr_data r)) with Some v => Ok v | None => Throw OutOfRange end.
(** logreader.cpp:97-103 *)
Definition getBasisFuncCount (r : LogReader) : list Z := map (fun kv => Z.of_nat (length (snd kv))) (orb_ (lr_data r)).
(** logreader.hpp:29 *)
Definition getCoords (r : LogReader) : list (list (num N)) := xyz (lr_data r).
(** logreader.hpp:20 *)
Definition getOrbitalInfo (r : LogReader) := orb_ (lr_data r).

(** ** punreader.cpp *)
(** punreader.cpp:51-60; the loop ends because [indent], an [int], grows *)
Fixpoint gaus_loop (fuel : nat) (line : str) (indent : Z) (values : list (num N)) : outcome (list (num N)) :=
  match fuel with
  | O => NoFuel
  | S n =>
    if 15 <=? size_t (len line - indent) then
      s <- substr line indent 11 ;;
      a <- n_stod N (trimmed s) ;;
      s <- substr line (12 + indent) 3 ;;
      b <- n_stod N (trimmed s) ;;
      indent <- iadd indent 15 ;;
      gaus_loop n line indent (values ++ [n_mul N a (n_pow10 N b)])
    else Ok values
  end.
(** punreader.cpp:47-62 *)
Definition readGausCoefLine (line : str) : outcome (list (num N)) := gaus_loop (S (length line)) line 0 [].

(** punreader.cpp:79-88: [line], the stream, [row] *)
Fixpoint coef_inner (fuel : nat) (f : fstate) (line : str) (row : list (num N)) (first_row_set : bool) (count : Z) : outcome (str * fstate * list (num N)) :=
  match fuel with
  | O => NoFuel
  | S n =>
    if foundSubStrInStr line $" MO OE" then Ok (line, f, row)
    else if first_row_set && (count <=? Z.of_nat (length row)) then Ok (line, f, row)
    else
      coef <- readGausCoefLine line ;;
      let '(line, f) := getl f line in
      coef_inner n f line (row ++ coef) first_row_set count
  end.
(** punreader.cpp:74-94 *)
Fixpoint coef_outer (fuel : nat) (orb_type : str) (f : fstate) (first_row_set : bool) (count : Z) (v_vec : list (list (num N))) : outcome (fstate * list (list (num N))) :=
  match fuel with
  | O => NoFuel
  | S n =>
    let '(line, f) := getl f [] in
    r <- coef_inner n f line [] first_row_set count ;;
    let '(line, f, row) := r in
    let v_vec := v_vec ++ [row] in
    if foundSubStrInStr line orb_type then coef_outer n orb_type f true (Z.of_nat (length row)) v_vec
    else Ok (f, v_vec)
  end.
(** punreader.cpp:64-99; the only data member (punreader.hpp:30) is [coefs] *)
Definition ReadCoef (fuel : nat) (orb_type : str) (f : fstate) (coefs : smap (mat (num N))) : outcome (fstate * smap (mat (num N))) :=
  r <- coef_outer fuel orb_type f false 0 [] ;;
  let '(f, v_vec) := r in
  m <- Matrix_of_vecs v_vec ;;
  Ok (f, m_set orb_type m coefs).

(** punreader.cpp:22-30 *)
Definition pun_headers : smap (list str) := [($"CoefAlpha", [$" 1 Alpha MO "]); ($"CoefBeta", [$" 1 Beta MO "])].
(** punreader.cpp:26-27 *)
Definition pun_readers : list str := [$"CoefAlpha"; $"CoefBeta"].
(** punreader.cpp:101-109 *)
Definition pun_section (fuel : nat) (tag : str) (f : fstate) (coefs : smap (mat (num N))) : outcome (fstate * smap (mat (num N))) :=
  if str_eqb tag $"CoefAlpha" then ReadCoef fuel $"Alpha" f coefs else ReadCoef fuel $"Beta" f coefs.
(** punreader.hpp:12-31, filereader.hpp:44-49: a PunReader object *)
Record PunReader := mkPunReader { pr_name : str; pr_pos : option nat; coefs : smap (mat (num N)) }.
(** punreader.cpp:17-20, 40-45 *)
Definition PunReader_new (fileName : str) : outcome PunReader :=
  ext <- fileExt_ fileName ;;
  if negb (str_eqb ext $".pun") then Throw InvalidArgument
  else checkSections_ pun_headers pun_readers ;;;
       Ok (mkPunReader fileName (Some O) []).
(** filereader.cpp:14-25 for a PunReader *)
Definition pun_read (files : str -> option str) (fuel : nat) (r : PunReader) : outcome PunReader :=
  p <- read files pun_headers pun_section fuel (pr_name r) (pr_pos r) (coefs r) ;;
  Ok (mkPunReader (pr_name r) (fst p) (snd p)).
(** punreader.cpp:32-38 *)
Definition getCoefsMatrix (r : PunReader) (orb_type : str) : outcome (mat (num N)) :=
  match m_find orb_type (coefs r) with Some m => Ok m | None => Throw InvalidArgument end.
(** punreader.hpp:15 *)
Definition restrictedShell (r : PunReader) : bool := (length (coefs r) =? 1)%nat.
End Readers.

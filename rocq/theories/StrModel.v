(** * Model of src/libcatnip/string_support.cpp and of the std::string operations it uses

    A std::string is the list of its characters.  [size_t] values are
    mathematical integers reduced modulo 2^64 where the code converts an [int]
    or subtracts; [npos] is [None].  The test [(int)found != -1] is modelled as
    [found != npos], which is the same for strings shorter than 2^32 - 1
    characters.  [isspace]/[isalpha] are those of the "C" locale; for characters
    above 127 (negative [char], formally undefined) they are taken to be false,
    as glibc does. *)
From Verif Require Export StrBase.
Open Scope Z_scope.

(** ** std::string *)
Definition SIZE_MOD : Z := 18446744073709551616.
(** conversion to size_t (64 bits) *)
Definition size_t (z : Z) : Z := z mod SIZE_MOD.
(** [s.size()] *)
Definition len (s : str) : Z := Z.of_nat (length s).

(** [s.substr(pos, n)] with size_t arguments already reduced: throws when
    pos > size, takes at most [n] characters. *)
Definition substr (s : str) (pos n : Z) : outcome str :=
  if len s <? pos then Throw OutOfRange
  else Ok (firstn (Z.to_nat (Z.min n (len s))) (skipn (Z.to_nat pos) s)).
(** [s.substr(pos)] *)
Definition substr1 (s : str) (pos : Z) : outcome str :=
  if len s <? pos then Throw OutOfRange else Ok (skipn (Z.to_nat pos) s).

(** membership in the set of find_first_of / find_last_of *)
Definition mem (c : ascii) (set : str) : bool := existsb (Ascii.eqb c) set.

(** [s.find_first_of(set)] *)
Fixpoint find_first_of (set s : str) : option nat :=
  match s with
  | [] => None
  | c :: t => if mem c set then Some O else option_map S (find_first_of set t)
  end.
(** [s.find_last_of(set)] *)
Fixpoint find_last_of (set s : str) : option nat :=
  match s with
  | [] => None
  | c :: t => match find_last_of set t with
              | Some i => Some (S i)
              | None => if mem c set then Some O else None
              end
  end.
(** the comparison at one position of [s.find(occ)] *)
Fixpoint starts_with (p s : str) : bool :=
  match p, s with
  | [], _ => true
  | x :: p', y :: s' => Ascii.eqb x y && starts_with p' s'
  | _, [] => false
  end.
(** [s.find(occ)] *)
Fixpoint find (occ s : str) : option nat :=
  if starts_with occ s then Some O
  else match s with [] => None | _ :: t => option_map S (find occ t) end.

(** the leading characters satisfying a test *)
Fixpoint take_while (p : ascii -> bool) (s : str) : str :=
  match s with [] => [] | c :: t => if p c then c :: take_while p t else [] end.
(** what is left after them *)
Fixpoint drop_while (p : ascii -> bool) (s : str) : str :=
  match s with [] => [] | c :: t => if p c then drop_while p t else s end.

(** ** string_support.cpp *)
(** string_support.cpp:19-24 (not _WIN32) *)
Definition PATH_SEPERATOR : str := $"/".

(** string_support.cpp:31-34 *)
Definition ltrim (s : str) : str := drop_while is_space s.
(** string_support.cpp:37-41: erase from the base of the first reverse non-space *)
Definition rtrim (s : str) : str := rev (drop_while is_space (rev s)).
(** string_support.cpp:95-98 *)
Definition trim (s : str) : str := rtrim (ltrim s).
(** string_support.cpp:101-116: the same on a copy *)
Definition ltrimmed := ltrim.
(** string_support.cpp:107-110 *)
Definition rtrimmed := rtrim.
(** string_support.cpp:113-116 *)
Definition trimmed := trim.

(** [iss >> word]: skip white space, take the characters up to the next white
    space; fails (None) when only white space is left. *)
Definition extract (s : str) : option (str * str) :=
  match drop_while is_space s with
  | [] => None
  | c :: t => let s' := c :: t in
              Some (take_while (fun c => negb (is_space c)) s', drop_while (fun c => negb (is_space c)) s')
  end.
(** istream_iterator until failure; every extraction consumes a character, so
    [length s] rounds are enough *)
Fixpoint extract_all (fuel : nat) (s : str) : list str :=
  match fuel with
  | O => []
  | S f => match extract s with None => [] | Some (w, r) => w :: extract_all f r end
  end.
(** string_support.cpp:44-55 *)
Definition splitSt (input : str) : list str :=
  filter (fun w => negb (str_eqb w [])) (extract_all (length input) input).

(** string_support.cpp:57-67: the loop; every round shortens [line], so [length] rounds suffice *)
Fixpoint lastStringInPath_loop (fuel : nat) (line : str) : outcome str :=
  match fuel with
  | O => NoFuel
  | S f => match find_first_of PATH_SEPERATOR line with
           | None => Ok line
           | Some found => l <- substr line (Z.of_nat found + 1) (len line) ;; lastStringInPath_loop f l
           end
  end.
(** string_support.cpp:57-67 *)
Definition lastStringInPath (input : str) : outcome str :=
  lastStringInPath_loop (S (length input)) input.

(** string_support.cpp:69-82: [found + 1] is 0 when found = npos *)
Fixpoint getPath_loop (fuel : nat) (input line : str) (found2 : Z) : outcome str :=
  match fuel with
  | O => NoFuel
  | S f =>
    let found := find_first_of PATH_SEPERATOR line in
    let step := match found with None => 0 | Some k => Z.of_nat k + 1 end in
    line' <- substr line step (len line) ;;
    let found2' := found2 + step in
    val <- substr input 0 found2' ;;
    match found with None => Ok val | Some _ => getPath_loop f input line' found2' end
  end.
(** string_support.cpp:69-82 *)
Definition getPath (input : str) : outcome str := getPath_loop (S (length input)) input input 0.

(** string_support.cpp:84 *)
Definition lastN (s : str) (n : Z) : outcome str := substr1 s (size_t (len s - n)).
(** string_support.cpp:86-88 *)
Definition cut_end (s : str) (n : Z) : outcome str := substr s 0 (size_t (len s - n)).
(** string_support.cpp:90 *)
Definition firstN (s : str) (n : Z) : outcome str := substr s 0 (size_t n).
(** string_support.cpp:92 *)
Definition cut_beg (s : str) (n : Z) : outcome str := substr s (size_t n) (len s).

(** string_support.cpp:118-123: [b] is the buffer, [s] and [s2] positions in it; the buffer must
    contain a NUL *)
Definition NUL : ascii := "000"%char.
(** string_support.cpp:118-123, the loop *)
Fixpoint removeSpace_loop (fuel : nat) (b : str) (s s2 : nat) : outcome str :=
  match fuel with
  | O => NoFuel
  | S f =>
    match nth_error b s2 with
    | None => Undef OutOfBounds
    | Some c =>
      let b' := if Ascii.eqb c " "%char then b else upd b s c in
      let s' := if Ascii.eqb c " "%char then s else S s in
      if Ascii.eqb c NUL then Ok b' else removeSpace_loop f b' s' (S s2)
    end
  end.
(** string_support.cpp:118-123 *)
Definition removeSpace (b : str) : outcome str := removeSpace_loop (S (length b)) b 0 0.

(** string_support.cpp:125-132 *)
Definition grabStrAfterFirstOccurance (s occ : str) : outcome str :=
  match find occ s with None => Ok [] | Some pos => substr1 s (Z.of_nat pos + len occ) end.
(** string_support.cpp:134-138 *)
Definition grabStrAfterLastOccurance (s occ : str) : outcome str :=
  match find_last_of occ s with None => Ok [] | Some pos => substr1 s (Z.of_nat pos + 1) end.
(** string_support.cpp:140-144 *)
Definition grabStrAfterLastOccuranceInclusive (s occ : str) : outcome str :=
  match find_last_of occ s with None => Ok [] | Some pos => substr1 s (Z.of_nat pos) end.
(** string_support.cpp:146-150 *)
Definition grabStrBeforeFirstOccurance (s occ : str) : outcome str :=
  match find occ s with None => Ok s | Some pos => substr s 0 (Z.of_nat pos) end.
(** string_support.cpp:152-156 *)
Definition grabStrBeforeLastOccurance (s occ : str) : outcome str :=
  match find_last_of occ s with None => Ok s | Some pos => substr s 0 (Z.of_nat pos) end.
(** string_support.cpp:158-162 *)
Definition grabStrBeforeLastOccuranceInclusive (s occ : str) : outcome str :=
  match find_last_of occ s with None => Ok s | Some pos => substr s 0 (Z.of_nat pos + 1) end.
(** string_support.cpp:164-166 *)
Definition foundSubStrInStr (s sub : str) : bool :=
  match find sub s with None => false | Some _ => true end.

(** isalpha, "C" locale *)
Definition is_alpha (c : ascii) : bool :=
  ((65 <=? code c) && (code c <=? 90)) || ((97 <=? code c) && (code c <=? 122)).
(** string_support.cpp:168-172 *)
Definition isAlphabetical (s : str) : bool := forallb is_alpha s && negb (str_eqb s []).

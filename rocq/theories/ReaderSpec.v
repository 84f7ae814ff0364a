(** * Specification vocabulary for the file readers

    A file is described as lines of text; a line as words between white space.
    Nothing here refers to the way the readers work. *)
From Verif Require Export MatrixSpec.
From Verif Require Export StrSpec ReaderModel.
Open Scope Z_scope.

(** ** lines *)
Definition is_line (l : str) : Prop := ~ In nl l.
(** the characters of some lines *)
Definition text (lines : list str) : str := concat (map (fun l => l ++ [nl]) lines).
(** the words of a line *)
Definition words_of (l : str) (ws : list str) : Prop :=
  exists g0 gs, woven g0 gs /\ l = weave g0 gs /\ map fst gs = ws.
(** a row of a table: words, no white space at the end *)
Definition table_row (l : str) (ws : list str) : Prop := words_of l ws /\ ends_solid l.
(** [s] without surrounding white space *)
Definition stripped (s m : str) : Prop :=
  exists a b, white a /\ white b /\ s = a ++ m ++ b /\ begins_solid m /\ ends_solid m.
Definition alphabetic (w : str) : Prop := w <> [] /\ forall c, In c w -> In c letters.
(** the stream is good and stands before [lines] and [tail] *)
Definition left_in (s : stream) : str := skipn (s_pos s) (s_all s).
Definition at_ (f : fstate) (lines : list str) (tail : str) : Prop :=
  s_eof (fid f) = false /\ s_fail (fid f) = false /\ left_in (fid f) = text lines ++ tail.
(** lo, lo + 1, ..., hi *)
Definition range (lo hi : Z) : list Z := map (fun k => lo + Z.of_nat k) (seq 0 (Z.to_nat (hi - lo + 1))).

(** ** sections in general: [headers] gives for every tag the texts that begin its section *)
Definition starts_section (headers : smap (list str)) (l tag : str) : Prop :=
  (exists ps p, In (tag, ps) headers /\ In p ps /\ occurs p l) /\
  forall t ps p, In (t, ps) headers -> In p ps -> occurs p l -> t = tag \/ str_ltb tag t = true.
Definition starts_none (headers : smap (list str)) (l : str) : Prop :=
  forall t ps p, In (t, ps) headers -> In p ps -> ~ occurs p l.
(** the sections met in [lines]: a line that begins none is skipped; the section
    [tag] takes the following lines [ls] if [takes tag ls rest] *)
Inductive sections (headers : smap (list str)) (takes : str -> list str -> list str -> Prop) : list str -> list (str * list str) -> Prop :=
| sec_end : sections headers takes [] []
| sec_skip : forall l lines trace, is_line l -> starts_none headers l -> sections headers takes lines trace -> sections headers takes (l :: lines) trace
| sec_start : forall l tag ls rest trace, is_line l -> starts_section headers l tag -> takes tag ls rest -> sections headers takes rest trace ->
    sections headers takes (l :: ls ++ rest) ((tag, ls) :: trace).
Fixpoint increasing (tags : list str) : Prop :=
  match tags with [] => True | t :: r => Forall (fun u => str_ltb t u = true) r /\ increasing r end.

(** ** the kinds of sections of a log file, in the order in which their marks are looked for *)
Inductive kind := KPopulation | KCoordinates | KAlpha | KBeta | KOverlap.
Definition kinds : list kind := [KPopulation; KCoordinates; KAlpha; KBeta; KOverlap].
Definition marks (k : kind) : list str :=
  match k with
  | KPopulation => [$"     Gross orbital populations:"]
  | KCoordinates => [$"Center     Atomic      Atomic"; $"Center     Atomic     Atomic"]
  | KAlpha => [$" Alpha  occ. eigenvalues --"]
  | KBeta => [$"  Beta  occ. eigenvalues --"]
  | KOverlap => [$" *** Overlap ***"]
  end.
Definition has_mark (k : kind) (l : str) : Prop := exists p, In p (marks k) /\ occurs p l.
Definition rank (k : kind) : nat := match k with KPopulation => 0 | KCoordinates => 1 | KAlpha => 2 | KBeta => 3 | KOverlap => 4 end.
Definition begins (k : kind) (l : str) : Prop := has_mark k l /\ forall k', (rank k' < rank k)%nat -> ~ has_mark k' l.
Definition no_mark (l : str) : Prop := forall k, ~ has_mark k l.

(** the texts that end a coordinate table and a population table *)
Definition table_end : str := repeat "-"%char 69.
Definition population_over : str := $"         Condensed to atoms".

Section Spec.
Context (N : nums).
Notation num := (num N).

(** ** coordinate tables: words 4, 5, 6 of a row are the coordinates *)
Definition coord_row (l : str) (p : num * num * num) : Prop :=
  is_line l /\ ~ occurs table_end l /\
  exists a b c x y z rest, words_of l (a :: b :: c :: x :: y :: z :: rest) /\
    n_stod N x = Ok (fst (fst p)) /\ n_stod N y = Ok (snd (fst p)) /\ n_stod N z = Ok (snd p).

(** ** orbital energies *)
Definition spin_name (beta : bool) : str := if beta then $"Beta" else $"Alpha".
Definition occ_mark (beta : bool) : str := $" " ++ spin_name beta ++ $"  occ. eigenvalues -- ".
Definition virt_mark (beta : bool) : str := $" " ++ spin_name beta ++ $" virt. eigenvalues -- ".
(** a printed energy: a minus sign can only be its first character *)
Definition energy (e : str) : Prop := word e /\ forall a b, e = a ++ $"-" ++ b -> a = [].
(** energies printed without blanks between them *)
Definition glued (tok : str) (es : list str) : Prop :=
  tok = concat es /\ es <> [] /\ Forall energy es /\
  forall e t, es = e :: t -> Forall (fun e => exists b, e = $"-" ++ b) t.
(** at most five energies after four words *)
Definition energy_words (ws es : list str) : Prop :=
  exists w1 w2 w3 w4 toks groups, ws = w1 :: w2 :: w3 :: w4 :: toks /\ Forall2 glued toks groups /\
    es = concat groups /\ (length es <= 5)%nat.
(** a line with energies [vs]; [occ]: of occupied orbitals *)
Definition energy_line (beta : bool) (l : str) (d : bool * list num) : Prop :=
  is_line l /\
  (if fst d then occurs (occ_mark beta) l else occurs (virt_mark beta) l /\ ~ occurs (occ_mark beta) l) /\
  exists ws es, words_of l ws /\ energy_words ws es /\ snd d = map (n_atof N) es.
Definition not_energy_line (beta : bool) (l : str) : Prop := ~ occurs (occ_mark beta) l /\ ~ occurs (virt_mark beta) l.

(** ** overlap matrices *)
(** the value of a text such as 0.123D-01 *)
Definition coef_text (s : str) (v : num) : Prop :=
  exists a b x y, first_at $"D" s a b /\ n_stod N a = Ok x /\ n_stod N b = Ok y /\ v = n_mul N x (n_pow10 N y).
(** block [b] (0, 1, ...) of the lower triangle of an n x n matrix: the column numbers
    5b+1 .. 5b+5, then for every row i > 5b its number and its entries up to the diagonal *)
Definition overlap_block (n : Z) (t : Z -> Z -> str) (b : Z) (ls : list str) : Prop :=
  exists h rows, ls = h :: rows /\ words_of h (map dec (range (5 * b + 1) (Z.min n (5 * b + 5)))) /\
    Forall2 (fun i l => table_row l (dec i :: map (t i) (range (5 * b + 1) (Z.min i (5 * b + 5))))) (range (5 * b + 1) n) rows.
Definition overlap_lines (n : Z) (t : Z -> Z -> str) (ls : list str) : Prop :=
  exists blocks, ls = concat blocks /\ Forall2 (overlap_block n t) (range 0 ((n - 1) / 5)) blocks /\ Forall is_line ls.
Definition overlap_table (n : Z) (v : Z -> Z -> num) (ls : list str) : Prop :=
  exists t, overlap_lines n t ls /\ forall i j, 1 <= j <= i -> i <= n -> coef_text (t i j) (v i j).

(** a blank line, or one that begins with a number other than [k] *)
Definition not_row (k : Z) (l : str) : Prop :=
  words_of l [] \/ exists w ws z, words_of l (w :: ws) /\ stoi w = Ok z /\ z <> k.

(** ** populations *)
(** columns 10 and 11 *)
Definition column (l : str) : str := firstn 2 (skipn 9 l).
(** the first row of an atom: number, number of the atom, element, label, values *)
Definition first_row (l elem label : str) (vs : list num) : Prop :=
  is_line l /\ ~ occurs population_over l /\
  (exists no at_ ts, table_row l (no :: at_ :: elem :: label :: ts) /\ Forall2 (fun t v => n_stod N t = Ok v) ts vs) /\
  alphabetic elem /\ exists e, length (column l) = 2%nat /\ stripped (column l) e /\ alphabetic e.
(** another row: number, label, values *)
Definition other_row (l : str) (r : str * list num) : Prop :=
  is_line l /\ ~ occurs population_over l /\
  (exists no t ts, table_row l (no :: fst r :: t :: ts) /\ Forall2 (fun t v => n_stod N t = Ok v) (t :: ts) (snd r) /\ ~ alphabetic t) /\
  length (column l) = 2%nat /\ white (column l).
(** atoms: element, rows (label, values) *)
Definition atom := (str * list (str * list num))%type.
Inductive population : list atom -> list str -> Prop :=
| pop_nil : population [] []
| pop_atom : forall elem label vs rows l ls atoms lines,
    first_row l elem label vs -> Forall2 other_row ls rows -> population atoms lines ->
    population ((elem, (label, vs) :: rows) :: atoms) (l :: ls ++ lines).
(** tables of the same molecule in the same basis; the labels of an atom are different *)
Definition same_basis (a b : list atom) : Prop :=
  Forall2 (fun x y => fst x = fst y /\ map fst (snd x) = map fst (snd y)) a b.
Definition distinct_labels (atoms : list atom) : Prop := Forall (fun x => NoDup (map fst (snd x))) atoms.
Definition population_end (l : str) : Prop :=
  is_line l /\ occurs population_over l /\ exists e, length (column l) = 2%nat /\ stripped (column l) e /\ alphabetic e.

(** ** log files *)
Inductive item :=
| Other (l : str)                                            (* a line that begins no section *)
| Coordinates (h a b : str) (rows : list str) (e : str) (points : list (num * num * num))
| Eigenvalues (beta : bool) (ls : list str) (values : list (bool * list num))
| Overlaps (h : str) (ls : list str) (after : option str) (n : Z) (v : Z -> Z -> num)
| Population (h a : str) (ls : list str) (e : str) (atoms : list atom).
Definition opt (o : option str) : list str := match o with Some l => [l] | None => [] end.
Definition item_lines (it : item) : list str :=
  match it with
  | Other l => [l]
  | Coordinates h a b rows e _ => h :: a :: b :: rows ++ [e]
  | Eigenvalues _ ls _ => ls
  | Overlaps h ls after _ _ => h :: ls ++ opt after
  | Population h a ls e _ => h :: a :: ls ++ [e]
  end.
(** the first line of what follows *)
Definition first_of (rest : list str) (tail : str) : str := match rest with l :: _ => l | [] => tail end.
(** [it] is printed correctly, and followed by the lines [rest] and the text [tail] *)
Definition item_ok (it : item) (rest : list str) (tail : str) : Prop :=
  match it with
  | Other l => is_line l /\ no_mark l
  | Coordinates h a b rows e points =>
    is_line h /\ begins KCoordinates h /\ is_line a /\ is_line b /\ Forall2 coord_row rows points /\ is_line e /\ occurs table_end e
  | Eigenvalues beta ls values =>
    (exists h t, ls = h :: t /\ begins (if beta then KBeta else KAlpha) h) /\
    Forall2 (energy_line beta) ls values /\ not_energy_line beta (first_of rest tail)
  | Overlaps h ls after n v =>
    is_line h /\ begins KOverlap h /\ 1 <= n /\ n * n <= INT_MAX /\ overlap_table n v ls /\
    match after with Some l => is_line l | None => rest = [] end /\
    (n <= 5 -> exists l, after = Some l /\ not_row (n + 1) l)
  | Population h a ls e atoms =>
    is_line h /\ begins KPopulation h /\ is_line a /\ atoms <> [] /\ population atoms ls /\ population_end e
  end.
(** [lines], then [tail]: a log file made of the [items] *)
Inductive log_lines (tail : str) : list item -> list str -> Prop :=
| log_nil : log_lines tail [] []
| log_item : forall it items lines, item_ok it lines tail -> log_lines tail items lines ->
    log_lines tail (it :: items) (item_lines it ++ lines).
(** the file: a last line without newline must not begin a section *)
Definition log_file (items : list item) (content : str) : Prop :=
  exists lines tail, content = text lines ++ tail /\ is_line tail /\ no_mark tail /\ log_lines tail items lines.

(** [it] is the last item of [items] that satisfies [P] *)
Definition last_item (P : item -> Prop) (items : list item) (it : item) : Prop :=
  exists a b, items = a ++ it :: b /\ P it /\ forall it', In it' b -> ~ P it'.
Definition is_coordinates (it : item) : Prop := match it with Coordinates _ _ _ _ _ _ => True | _ => False end.
Definition is_eigenvalues (beta : bool) (it : item) : Prop := match it with Eigenvalues b _ _ => b = beta | _ => False end.
Definition is_overlaps (it : item) : Prop := match it with Overlaps _ _ _ _ _ => True | _ => False end.
Definition is_population (it : item) : Prop := match it with Population _ _ _ _ _ => True | _ => False end.

(** ** pun files *)
(** a field of 15 characters: mantissa (11), a letter, exponent (3) *)
Definition field (f : str) (v : num) : Prop :=
  length f = 15%nat /\ exists m e x y, stripped (firstn 11 f) m /\ stripped (skipn 12 f) e /\
    n_stod N m = Ok x /\ n_stod N e = Ok y /\ v = n_mul N x (n_pow10 N y).
(** a line of fields (of less than 2^31 characters); fewer than 15 characters may follow *)
Definition coef_line (l : str) (vs : list num) : Prop :=
  is_line l /\ ~ occurs $" MO OE" l /\ Z.of_nat (length l) <= INT_MAX /\ vs <> [] /\ exists fs rest, l = concat fs ++ rest /\ (length rest < 15)%nat /\ Forall2 field fs vs.
Definition orbital (ls : list str) (row : list num) : Prop := exists vss, Forall2 coef_line ls vss /\ row = concat vss /\ row <> [].
(** the orbitals after the first, each with a title line *)
Inductive orbitals (spin : str) (n : nat) : list str -> list (list num) -> Prop :=
| orb_nil : orbitals spin n [] []
| orb_cons : forall h ls row lines rows, is_line h -> occurs $" MO OE" h -> occurs spin h -> orbital ls row -> length row = n ->
    orbitals spin n lines rows -> orbitals spin n (h :: ls ++ lines) (row :: rows).
Inductive ospin := SAlpha | SBeta.
Definition pspin (k : ospin) : str := match k with SAlpha => $"Alpha" | SBeta => $"Beta" end.
Definition pmark (k : ospin) : str := $" 1 " ++ pspin k ++ $" MO ".
Inductive pitem :=
| POther (l : str)
| Coefs (k : ospin) (h : str) (ls : list str) (after : option str) (rows : list (list num)).
Definition pitem_lines (it : pitem) : list str :=
  match it with POther l => [l] | Coefs _ h ls after _ => h :: ls ++ opt after end.
(** what follows the orbitals must not mention the spin; a single orbital must be followed by another title *)
Definition pitem_ok (it : pitem) (rest : list str) (tail : str) : Prop :=
  match it with
  | POther l => is_line l /\ forall k, ~ occurs (pmark k) l
  | Coefs k h ls after rows =>
    is_line h /\ occurs (pmark k) h /\ (k = SBeta -> ~ occurs (pmark SAlpha) h) /\
    (exists ls1 row1 ls2 rows2, ls = ls1 ++ ls2 /\ rows = row1 :: rows2 /\ orbital ls1 row1 /\ orbitals (pspin k) (length row1) ls2 rows2) /\
    (let next := match after with Some l => l | None => tail end in
     is_line next /\ ~ occurs (pspin k) next /\ (length rows = 1%nat -> occurs $" MO OE" next)) /\
    (after = None -> rest = []) /\
    Z.of_nat (length rows) * Z.of_nat (length (hd [] rows)) <= INT_MAX /\ Z.of_nat (length rows) <= INT_MAX
  end.
Inductive pun_lines (tail : str) : list pitem -> list str -> Prop :=
| pun_nil : pun_lines tail [] []
| pun_item : forall it items lines, pitem_ok it lines tail -> pun_lines tail items lines ->
    pun_lines tail (it :: items) (pitem_lines it ++ lines).
Definition pun_file (items : list pitem) (content : str) : Prop :=
  exists lines tail, content = text lines ++ tail /\ is_line tail /\ (forall k, ~ occurs (pmark k) tail) /\ pun_lines tail items lines.
Definition last_coefs (k : ospin) (items : list pitem) (rows : list (list num)) : Prop :=
  exists a b h ls after, items = a ++ Coefs k h ls after rows :: b /\ forall h' ls' after' rows', ~ In (Coefs k h' ls' after' rows') b.
Definition no_coefs (k : ospin) (items : list pitem) : Prop := forall h ls after rows, ~ In (Coefs k h ls after rows) items.
End Spec.
(** element (r,c) of a list of rows (1-based) *)
Definition entry_of {T} (rows : list (list T)) (r c : Z) (x : T) : Prop :=
  exists row, nth_error rows (Z.to_nat (r - 1)) = Some row /\ nth_error row (Z.to_nat (c - 1)) = Some x.

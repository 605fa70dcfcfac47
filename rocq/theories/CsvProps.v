(** Property theorems C46: load_csv.  Specification: CsvSpec.v (what a CSV file is), [rep] /
    [represents] of NdSpec.v (what a distributed array holds). *)
From Coq Require Import String Ascii.
From Verif Require Import Base BaseLemmas LayoutModel LayoutProofs RedistModel NdSpec OpsModel ShapeModel BinModel FactoryModel FactoryProps ShapeProps CsvSpec CsvModel CsvProofs CsvProofs2 CsvProofs3 CsvProofs4 CsvProofs5 CsvProofs6.
Open Scope nat_scope.

(** [y] is the balanced distributed table with the given rows and columns *)
Definition loaded {V} (dv : V) (P : nat) (split : option nat) (c : nat) (vals : list (list V)) (y : dnd V) : Prop :=
  let sh := [Z.of_nat (length vals); Z.of_nat c] in
  d_gshape y = sh /\ d_split y = split /\ rep y (balanced_counts P sh split) (table dv vals).
Definition terminator (crlf : bool) : list nat := if crlf then [13; 10] else [10].

(** C46, split=None and split=1: for every table of numbers behind any header, both line
    terminators, last line terminated or not, every number of processes. *)
Theorem C46_text_modes : forall (V : Type) (dv : V) (fl : list nat -> res V) (sep c P : nat) (crlf term : bool)
    (heads : list (list nat)) (tbl : list (list (list nat))) (vals : list (list V)) (split : option nat),
  0 < P -> (forall x, fl [] <> Ok x) -> sep <> 10 -> sep <> 13 ->
  (forall l, In l heads -> one_line l) ->
  is_table (fun f x => fl f = Ok x) sep c tbl vals -> vals <> [] -> ~ In [] tbl ->
  split = None \/ split = Some 1 ->
  exists y, load_csv dv fl sep split P (length heads) (file_of (terminator crlf) term (heads ++ map (join [sep]) tbl)) = Ok y /\
    loaded dv P split c vals y.
Proof.
  intros V dv fl sep c P crlf term heads tbl vals split HP FE S1 S2 HH HT HV HB HS.
  assert (HK : exists k, (k = 1 \/ k = 2) /\ terminator crlf = eol k) by (destruct crlf; [exists 2|exists 1]; auto).
  destruct HK as (k & HK & ->). unfold loaded. destruct HS as [-> | ->]; cbn [load_csv].
  - exact (none_ok V dv fl sep c k P heads tbl vals term HP HK FE S1 S2 HH HT HB HV).
  - exact (cols_ok V dv fl sep c k P heads tbl vals term HP HK FE S1 S2 HH HT HB HV).
Qed.
Print Assumptions C46_text_modes.

(** C46, split=0, lines ended by \n: whatever the number of processes and the position of the
    shares, the call never returns a wrong table: blank lines apart, every line is read exactly
    once, in order.  (With one column, provided a column was recognised: see
    C46_column_lost_refuted.) *)
Theorem C46_rows_sound : forall (V : Type) (dv : V) (fl : list nat -> res V) (sep c P : nat) (term : bool)
    (heads : list (list nat)) (tbl : list (list (list nat))) (vals : list (list V)) (y : dnd V),
  0 < P -> (forall x, fl [] <> Ok x) -> sep <> 10 -> sep <> 13 ->
  (forall l, In l heads -> one_line l) ->
  is_table (fun f x => fl f = Ok x) sep c (rows_of tbl) vals -> vals <> [] ->
  load_csv dv fl sep (Some 0) P (length heads) (file_of [10] term (heads ++ map (join [sep]) tbl)) = Ok y ->
  2 <= c \/ nth 1 (d_gshape y) 0%Z <> 0%Z ->
  loaded dv P (Some 0) c vals y.
Proof.
  intros V dv fl sep c P term heads tbl vals y HP FE S1 S2 HH HT HV E HG. unfold loaded. cbn zeta. cbn [balanced_counts nth].
  assert (HP1 : (forall p, In p ((heads ++ map (join [sep]) tbl) ++ (if term then [[]] else [])) -> clean p)).
  { intros p Hp. apply in_app_or in Hp as [Hp|Hp]; [apply in_app_or in Hp as [Hp|Hp]|].
    - exact (HH p Hp).
    - apply in_map_iff in Hp as (row & <- & Hr). exact (join_clean V fl sep c tbl vals S1 S2 HT row Hr).
    - destruct term; [|contradiction]. destruct Hp as [<-|[]]. split; intros []. }
  refine (rows_sound V dv fl sep c 1 P heads tbl vals term HP (or_introl eq_refl) FE _ S1 S2 HH HT _ HV _ y E HG); try discriminate.
  intros r Hr. apply whole1. exact HP1.
Qed.
Print Assumptions C46_rows_sound.

(** C46, split=0: the call succeeds when every line takes at most half of a share (so every
    process finds line starts), the file is terminated, smaller than 2^31 bytes and without blank
    lines; for \r\n moreover no share may begin between \r and \n, and float() must ignore a
    trailing \r. *)
Theorem C46_rows_complete_partial : forall (V : Type) (dv : V) (fl : list nat -> res V) (sep c P : nat) (crlf : bool)
    (heads : list (list nat)) (tbl : list (list (list nat))) (vals : list (list V)),
  let lines := heads ++ map (join [sep]) tbl in
  let file := file_of (terminator crlf) true lines in
  0 < P -> (forall x, fl [] <> Ok x) -> sep <> 10 -> sep <> 13 ->
  (forall l, In l heads -> one_line l) ->
  is_table (fun f x => fl f = Ok x) sep c tbl vals -> vals <> [] -> ~ In [] tbl ->
  (forall l, In l lines -> 2 * (length l + length (terminator crlf)) <= length file / P) ->
  (Z.of_nat (length file) <= 2 ^ 31)%Z ->
  (crlf = true -> (forall f, fl (f ++ [13]) = fl f) /\
                  forall r, 0 < r < P -> nth (share_start (length file) r P - 1) file 0 <> 13) ->
  exists y, load_csv dv fl sep (Some 0) P (length heads) file = Ok y /\ loaded dv P (Some 0) c vals y.
Proof.
  intros V dv fl sep c P crlf heads tbl vals lines file HP FE S1 S2 HH HT HV HB HL H32 HC. unfold loaded. cbn zeta. cbn [balanced_counts nth load_csv].
  assert (HT' : is_table (fun f x => fl f = Ok x) sep c (rows_of tbl) vals).
  { replace (rows_of tbl) with tbl; [exact HT|]. symmetry. unfold rows_of. apply filter_all_iff. intros r Hr. destruct r; [contradiction|reflexivity]. }
  assert (HP1 : forall p, In p (lines ++ [[]]) -> clean p).
  { intros p Hp. apply in_app_or in Hp as [Hp|Hp]; [apply in_app_or in Hp as [Hp|Hp]|].
    - exact (HH p Hp).
    - apply in_map_iff in Hp as (row & <- & Hr). exact (join_clean V fl sep c tbl vals S1 S2 HT' row Hr).
    - destruct Hp as [<-|[]]. split; intros []. }
  destruct crlf.
  - destruct (HC eq_refl) as [FC HB2].
    refine (complete V dv fl sep c 2 P heads tbl vals HP (or_intror eq_refl) FE (fun _ => FC) S1 S2 HH HT HB HV _ HL H32).
    intros r Hr. apply whole2; auto. intros q Hq. rewrite <- share_start_eq by lia. now apply HB2.
  - refine (complete V dv fl sep c 1 P heads tbl vals HP (or_introl eq_refl) FE _ S1 S2 HH HT HB HV _ HL H32); [discriminate|].
    intros r Hr. apply whole1. exact HP1.
Qed.
Print Assumptions C46_rows_complete_partial.

(** * concrete files.  [num] reads decimal numbers, surrounding blanks and line breaks ignored,
    as float() does. *)
Definition b (s : string) : list nat := map nat_of_ascii (list_ascii_of_string s).
Definition digit (x : nat) : bool := (48 <=? x) && (x <=? 57).
Definition strip (l : list nat) : list nat := filter (fun x => negb (existsb (Nat.eqb x) [10; 13; 32])) l.
Definition num (l : list nat) : res nat :=
  match strip l with
  | [] => Err ValueError
  | ds => if forallb digit ds then Ok (fold_left (fun a x => 10 * a + (x - 48)) ds 0) else Err ValueError
  end.
Definition comma := 44.
(** rows held by every process *)
Definition show (y : res (dnd nat)) : res (list Z * list (list (list nat))) :=
  do d <- y; Ok (d_gshape d, map (fun t => map (fun i => map (fun j => adat t [Z.of_nat i; Z.of_nat j]) (seq 0 (Z.to_nat (nth 1 (ash t) 0%Z)))) (seq 0 (Z.to_nat (nth 0 (ash t) 0%Z)))) (d_locals d)).

Example C46_instance_lf : show (load_csv 0 num comma (Some 0) 2 1 (file_of [10] true [b "h,g"; b "1,2"; b "3,4"; b "5,60"; b "7,8"]))
  = Ok ([4; 2]%Z, [[[1; 2]; [3; 4]]; [[5; 60]; [7; 8]]]).
Proof. vm_compute. reflexivity. Qed.
Example C46_instance_crlf : show (load_csv 0 num comma (Some 0) 3 1 (file_of [13; 10] true [b "h,g"; b "1,2"; b "3,4"; b "5,6"; b "7,8"; b "9,9"]))
  = Ok ([5; 2]%Z, [[[1; 2]; [3; 4]]; [[5; 6]; [7; 8]]; [[9; 9]]]).
Proof. vm_compute. reflexivity. Qed.
Example C46_instance_text : show (load_csv 0 num comma (Some 1) 2 1 (file_of [13; 10] false [b "h"; b "1,2,3"; b "4,5,6"]))
  = Ok ([2; 3]%Z, [[[1; 2]; [4; 5]]; [[3]; [6]]]).
Proof. vm_compute. reflexivity. Qed.
(** the hypotheses of the completeness theorem are met by that \r\n file *)
Example C46_complete_hypotheses : let lines := [b "h,g"; b "1,2"; b "3,4"; b "5,6"; b "7,8"; b "9,9"] in let file := file_of [13; 10] true lines in
  (forall l, In l lines -> 2 * (length l + 2) <= length file / 3) /\ (forall r, 0 < r < 3 -> nth (share_start (length file) r 3 - 1) file 0 <> 13) /\
  is_table (fun f x => num f = Ok x) comma 2 [[b "1"; b "2"]; [b "3"; b "4"]] [[1; 2]; [3; 4]].
Proof.
  cbn zeta. split; [|split].
  - intros l H. repeat (destruct H as [<-|H]; [apply Nat.leb_le; vm_compute; reflexivity|]). contradiction.
  - intros r H. assert (E : r = 1 \/ r = 2) by lia. destruct E as [-> | ->]; vm_compute; discriminate.
  - repeat constructor; try (vm_compute; reflexivity); cbn; intros H'; repeat (destruct H' as [H'|H']; [try discriminate|]); auto.
    all: try (destruct H as [<-|[<-|[]]]; cbn in H'; intuition discriminate).
Qed.

(** C46 in full is refuted: with \r\n, when a share ends between \r and \n behind a line that is
    not the first of its process, the last character of that line is lost (23 becomes 2). *)
Theorem C46_cut_terminator_refuted : exists (P : nat) (file : list nat),
  file = file_of [13; 10] true [b "1"; b "23"; b "45"] /\
  show (load_csv 0 num comma None P 0 file) = Ok ([3; 1]%Z, [[[1]; [23]; [45]]; [[1]; [23]; [45]]]) /\
  show (load_csv 0 num comma (Some 0) P 0 file) = Ok ([3; 1]%Z, [[[1]; [2]]; [[45]]]).
Proof. exists 2. eexists. split; [reflexivity|]. split; vm_compute; reflexivity. Qed.
Print Assumptions C46_cut_terminator_refuted.
(** ... and a cut terminator inside the header is counted twice: a header line is read as data *)
Theorem C46_cut_header_refuted : exists (P : nat) (file : list nat),
  file = file_of [13; 10] true [b "abc"; b "y"; b "12"; b "34"] /\
  show (load_csv 0 num comma None P 2 file) = Ok ([2; 1]%Z, repeat [[12]; [34]] 4) /\
  load_csv 0 num comma (Some 0) P 2 file = Err ValueError.
Proof. exists 4. eexists. split; [reflexivity|]. split; vm_compute; reflexivity. Qed.
Print Assumptions C46_cut_header_refuted.
(** a process behind the first data line that finds no line start raises IndexError: small files
    on many processes, or long lines *)
Theorem C46_small_file_refuted : exists (P : nat) (file : list nat),
  file = file_of [10] true [b "1"; b "2"; b "3333333"] /\
  load_csv 0 num comma (Some 0) P 0 file = Err IndexError.
Proof. exists 3. eexists. split; [reflexivity|]. vm_compute. reflexivity. Qed.
Print Assumptions C46_small_file_refuted.
(** columns are only counted on a process with two line starts: a table of one row without
    terminator raises, a single number becomes an array without columns *)
Theorem C46_column_lost_refuted :
  load_csv 0 num comma (Some 0) 1 0 (b "1,2") = Err RuntimeError /\
  show (load_csv 0 num comma (Some 0) 1 0 (b "7")) = Ok ([1; 0]%Z, [[[]]]) /\
  show (load_csv 0 num comma None 1 0 (b "7")) = Ok ([1; 1]%Z, [[[7]]]).
Proof. split; [|split]; vm_compute; reflexivity. Qed.
Print Assumptions C46_column_lost_refuted.
(** a blank line: passed over with split=0 (except when it is the last of its process and ends in \r\n), ValueError otherwise *)
Theorem C46_blank_line_refuted :
  show (load_csv 0 num comma (Some 0) 1 0 (file_of [10] true [b "1"; []; b "2"])) = Ok ([2; 1]%Z, [[[1]; [2]]]) /\
  load_csv 0 num comma None 1 0 (file_of [10] true [b "1"; []; b "2"]) = Err ValueError /\
  load_csv 0 num comma (Some 0) 3 0 (file_of [13; 10] true [b "1"; []; b "2"]) = Err ValueError.
Proof. split; [|split]; vm_compute; reflexivity. Qed.
Print Assumptions C46_blank_line_refuted.
(** rows of unequal length: with split=1 the surplus of later rows is dropped silently, with
    split=0 a single number is repeated over the columns *)
Theorem C46_ragged_refuted :
  show (load_csv 0 num comma (Some 1) 1 0 (file_of [10] true [b "1,2"; b "3,4,5"])) = Ok ([2; 2]%Z, [[[1; 2]; [3; 4]]]) /\
  show (load_csv 0 num comma (Some 0) 1 0 (file_of [10] true [b "1,2"; b "3"])) = Ok ([2; 2]%Z, [[[1; 2]; [3; 3]]]) /\
  load_csv 0 num comma None 1 0 (file_of [10] true [b "1,2"; b "3"]) = Err ValueError.
Proof. split; [|split]; vm_compute; reflexivity. Qed.
Print Assumptions C46_ragged_refuted.

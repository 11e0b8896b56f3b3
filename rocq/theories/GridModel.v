(** Model of the grid of minorminer/_extern/rpack/src/rpackcore.c and of [Grid.pack] of _core.pyx.
    Simplifications: a row or a column of the grid is the pair of its start and its end, and the linked list of
    them is a list; a pointer to a row cell is the start of the row ([cut] never changes the start of a cell);
    the jump matrix, which has an entry for each row cell and column cell, is a function of positions that is
    read at the start of a cell and written on whole cells, so that copying a row or a column of the matrix
    after a cut ([copy_row], [copy_col]) needs no step; [delta], used only by the search for a box, is left out.
    The C type [long] is [Z] (no overflow). *)
From Coq Require Import ZArith.
From stdpp Require Import base list numbers.

(** an entry of the jump matrix: NULL, a row cell, COL_FULL *)
Inductive mark := Free | To (t : Z) | Full.
Notation cell := (Z * Z)%type.
Notation marks := (Z -> Z -> mark).
Record grid := Grid { g_rows : list cell; g_cols : list cell; g_marks : marks }.

(** [M] with the entries of the rows from [s] to [e] and the columns from [s'] to [e'] set to [v] *)
Definition set_marks (M : marks) (s e s' e' : Z) (v : mark) : marks :=
  fun b a => if (s <=? b)%Z && (b <? e)%Z && (s' <=? a)%Z && (a <? e')%Z then v else M b a.

(** rpackcore.c 345-396, the loop over rows of [grid_find_region] in the column [c]; [skip]: the start of the row
    that was jumped to, the rows before it are passed over; [y]: the start of [row_cell_start]; [jf]: [jump_first] *)
Fixpoint scan_rows (h : Z) (c : cell) (rs : list cell) (skip : option Z) (y : Z) (jf : option cell) (M : marks) : option Z * marks :=
  match rs with
  | [] => (None, M)
  | (s, e) :: rs =>
    if match skip with Some t => negb (s =? t)%Z | None => false end then scan_rows h c rs skip y jf M else
    let v := M s c.1 in
    let M' := match jf with None => M | Some j => set_marks M j.1 j.2 c.1 c.2 v end in
    match v with
    | Full => (None, M')
    | To t => scan_rows h c rs (Some t) t (match jf with None => Some (s, e) | Some j => Some j end) M'
    | Free => if (e <? y + h)%Z then scan_rows h c rs None y None M else (Some y, M)
    end
  end.
(** 398-418, the loop over columns from [col_cell_start] on in the row [y] *)
Fixpoint scan_cols (x w y : Z) (cs : list cell) (M : marks) : bool :=
  match cs with
  | [] => false
  | (s, e) :: cs =>
    match M y s with
    | Free => if (x + w <=? e)%Z then true else scan_cols x w y cs M
    | _ => false
    end
  end.
(** 322-435 [grid_find_region]; the result is the position of the region *)
Fixpoint find_region (W w h : Z) (rows cs : list cell) (M : marks) : option (Z * Z) * marks :=
  match cs with
  | [] => (None, M)
  | c :: cs' =>
    let '(r, M') := scan_rows h c rows None 0 None M in
    let next := if (W <? c.2 + w)%Z then (None, M') else find_region W w h rows cs' M' in
    match r with
    | Some y => if scan_cols c.1 w y cs M' then (Some (c.1, y), M') else next
    | None => next
    end
  end.
(** 108-128 [cut]: the cell that contains [p] is cut in two there *)
Fixpoint cut (l : list cell) (p : Z) : list cell :=
  match l with
  | [] => []
  | (s, e) :: l => if (s <? p)%Z && (p <? e)%Z then (s, p) :: (p, e) :: l else (s, e) :: cut l p
  end.
(** the end of the cell with start [s] *)
Fixpoint end_of (l : list cell) (s : Z) : Z :=
  match l with [] => s | (s', e) :: l => if (s' =? s)%Z then e else end_of l s end.
(** 264-318 [grid_split]: the first column of the region and its first row are marked *)
Definition split (H x y w h : Z) (g : grid) : grid :=
  let rows := cut (g_rows g) (y + h) in
  let cols := cut (g_cols g) (x + w) in
  let target := if (y + h =? H)%Z then Full else To (y + h)%Z in
  let M := set_marks (g_marks g) y (y + h) x (end_of cols x) target in
  Grid rows cols (set_marks M y (end_of rows y) (end_of cols x) (x + w) target).
(** _core.pyx 265-285 [Grid.pack] for the rectangles [sizes] in their order; [None]: there is no place for one of them *)
Fixpoint place_all (W H : Z) (sizes : list (Z * Z)) (g : grid) : option (list (Z * Z)) :=
  match sizes with
  | [] => Some []
  | (w, h) :: sizes =>
    let '(r, M) := find_region W w h (g_rows g) (g_cols g) (g_marks g) in
    match r with
    | None => None
    | Some (x, y) =>
      match place_all W H sizes (split H x y w h (Grid (g_rows g) (g_cols g) M)) with
      | None => None | Some ps => Some ((x, y) :: ps) end
    end
  end.
Definition grid_pack (W H : Z) (sizes : list (Z * Z)) : option (list (Z * Z)) :=
  place_all W H sizes (Grid [(0, H)%Z] [(0, W)%Z] (fun _ _ => Free)).

(** _core.pyx 187-194 [rotate_all] and 229-234 [transpose], for one pair *)
Definition flip (rotated : bool) (p : Z * Z) : Z * Z := if rotated then (p.2, p.1) else p.
(** 390-410, the end of [pack]: the box [W] times [H], the order of the rectangles and whether they are turned are the
    choices that the search made (they are arguments here; [order] lists the indices of the rectangles).  [positions]
    (167-179) sorts by index; here the entry of each index is looked up.  [None]: an exception *)
Definition pack_in (order : list nat) (rotated : bool) (W H : Z) (sizes : list (Z * Z)) : option (list (Z * Z)) :=
  if existsb (fun wh => (wh.1 <=? 0)%Z || (wh.2 <=? 0)%Z) sizes then None else
  match mapM (fun i => sizes !! i) order with
  | None => None
  | Some rs =>
    match grid_pack W H (flip rotated <$> rs) with
    | None => None
    | Some ps =>
      mapM (fun i => match list_find (fun ip => ip.1 = i) (zip order ps) with Some (_, (_, p)) => Some (flip rotated p) | None => None end)
           (seq 0 (length sizes))
    end
  end.

(** A chip thermal model as a whole: the package of header, power and density files that is written and read,
    and the pictures made of it (src/model/thermal/io/EChipThermalModelIO.cpp).  Header text and table words are
    those of Ctm_Model and CtmTable_Model.

    The disk is the folder the files are put into and the package (tar.gz) beside it.  File names are values of
    [file]; the archiver packs and unpacks what is there, and files can always be opened. *)
From Verif Require Import Base Ctm_Model CtmTable_Model.
From Coq Require Import QArith Qminmax.
Local Close Scope Q_scope.
Local Open Scope res_scope.

(** generic::geometry::OccupancyGridMap: width, height and the values in the order of [operator\[\]] *)
Record tab := mktab { tb_w : nat; tb_h : nat; tb_vals : list Z }.
Definition text_eqb (a b : text) : bool := if list_eq_dec Z.eq_dec a b then true else false.

(** EChipThermalModel.h:43-62: header, power samples by temperature (or no power model), densities by layer name
    (a null pointer is [None]) *)
Record chip := mkchip { ch_hdr : hdr; ch_powers : option (list (Z * tab)); ch_dens : list (text * option tab) }.

Inductive file := FHeader | FPower (i : nat) | FDensity.
Definition file_eqb (a b : file) : bool :=
  match a, b with
  | FHeader, FHeader | FDensity, FDensity => true
  | FPower i, FPower j => (i =? j)%nat
  | _, _ => false
  end.
Inductive content := CText (t : text) | CWords (ws : list Z).
Definition folder : Type := list (file * content).
Definition get (f : file) (d : folder) : option content := alookup file_eqb f d.
(** opening a file for writing empties it *)
Definition put (f : file) (c : content) (d : folder) : folder := (f, c) :: aerase file_eqb f d.

Record disk := mkdisk { k_dir : folder; k_pack : option folder }.
(** one effect of the writer on the disk; [Pack] is EChipThermalModelIO.cpp:517-521 *)
Inductive step := Put (f : file) (c : content) | Pack.
Definition do_step (k : disk) (s : step) : disk :=
  match s with
  | Put f c => mkdisk (put f c (k_dir k)) (k_pack k)
  | Pack => mkdisk (k_dir k) (Some (k_dir k))
  end.
Definition do_steps (k : disk) (ss : list step) : disk := fold_left do_step ss k.

Section Pack.
  (** where [operator()] finds tile (x, y), and the tile boxes, see CtmTable_Model *)
  Context (pos : nat -> nat -> nat -> nat -> nat) (boxw : nat -> nat -> list Z).

  (** EChipThermalModelIO.cpp:77-87: the power files from number [i] on, and whether all were written *)
  Fixpoint power_steps (ps : list (Z * tab)) (i : nat) (ts : list Z) : list step * bool :=
    match ts with
    | [] => ([], true)
    | t :: ts' =>
        match alookup Z.eqb t ps with
        | None => ([], false)
        | Some tb => let '(ss, b) := power_steps ps (S i) ts' in
                     (Put (FPower (i + 1)) (CWords (write_power (tb_vals tb))) :: ss, b)
        end
    end.

  (** EChipThermalModelIO.cpp:90-98; [None] is [return false] *)
  Fixpoint layer_tabs (ds : list (text * option tab)) (ls : list lay) : option (list tab) :=
    match ls with
    | [] => Some []
    | l :: ls' =>
        match alookup text_eqb (l_name l) ds with
        | Some (Some tb) => option_map (cons tb) (layer_tabs ds ls')
        | _ => None
        end
    end.

  (** EChipThermalModelIO.cpp:471-515 *)
  Definition density_words (size : nat) (tabs : list tab) : option (list Z) :=
    match tabs with
    | [] => None
    | t0 :: _ =>
        if forallb (fun t => (List.length (tb_vals t) =? size)%nat) tabs
        then Some (write_density pos boxw (tb_w t0) (tb_h t0) (map tb_vals tabs)) else None
    end.

  Definition tile_count (h : hdr) : nat := Z.to_nat (fst (tiles h)) * Z.to_nat (snd (tiles h)).

  (** EChipThermalModelIO.cpp:53-109: what is done to the disk, in this order, and the answer *)
  Definition write_steps (m : chip) : list step * bool :=
    let h := ch_hdr m in
    if (List.length (temps h) <? 5)%nat then ([], false)
    else
      let s0 := [Put FHeader (CText (write_header h))] in
      match ch_powers m with
      | None => (s0, false)
      | Some ps =>
          let '(s1, b) := power_steps ps 0 (temps h) in
          if b then
            match layer_tabs (ch_dens m) (layers h) with
            | None => (s0 ++ s1, false)
            | Some tabs =>
                match density_words (tile_count h) tabs with
                | None => (s0 ++ s1, false)
                | Some ws => (s0 ++ s1 ++ [Put FDensity (CWords ws); Pack], true)
                end
            end
          else (s0 ++ s1, false)
      end.
  Definition write_package (m : chip) (k : disk) : bool * disk :=
    (snd (write_steps m), do_steps k (fst (write_steps m))).

  (** EChipThermalModelIO.cpp:30-38, EGridThermalModel.cpp:27-34: the samples of a new power model; an existing key
      is kept.  [None] is [return nullptr]. *)
  Fixpoint read_powers (d : folder) (w h : nat) (i : nat) (ts : list Z) (acc : list (Z * tab)) : option (list (Z * tab)) :=
    match ts with
    | [] => Some acc
    | t :: ts' =>
        match get (FPower (i + 1)) d with
        | Some (CWords ws) => read_powers d w h (S i) ts' (aemplace Z.eqb t (mktab w h (read_power ws (repeat 0%Z (w * h)))) acc)
        | _ => None
        end
    end.

  (** EChipThermalModelIO.cpp:15-51, reading the package [p] (no such file: [None]); [Ok None] is nullptr *)
  Definition read_package (p : option folder) : res (option chip) :=
    match p with
    | None => Ok None
    | Some d =>
        match get FHeader d with
        | Some (CText t) =>
            o <- parse_header default_hdr t ;;
            match o with
            | None => Ok None
            | Some h =>
                let w := Z.to_nat (fst (tiles h)) in let hh := Z.to_nat (snd (tiles h)) in
                match read_powers d w hh 0 (temps h) [] with
                | None => Ok None
                | Some ps =>
                    match get FDensity d with
                    | Some (CWords ws) =>
                        vs <- read_density (w * hh) ws (map (fun _ => repeat 0%Z (w * hh)) (layers h)) ;;
                        Ok (Some (mkchip h (Some ps)
                          (fold_left (fun ds e => aemplace text_eqb (fst e) (Some (mktab w hh (snd e))) ds)
                                     (combine (map l_name (layers h)) vs) [])))
                    | _ => Ok None
                    end
                end
            end
        | _ => Ok None
        end
    end.
End Pack.

(** ** Range, interpolation flag and pictures *)

(** EGridThermalModel.cpp:77-85; [None] stands for the untouched start values when there is no sample, or no tile *)
Definition widen (r : option (Z * Z)) (v : Z) : option (Z * Z) :=
  match r with None => Some (v, v) | Some (lo, hi) => Some (Z.min lo v, Z.max hi v) end.
Definition get_range (ps : list (Z * tab)) : option (Z * Z) :=
  fold_left (fun r s => fold_left widen (tb_vals (snd s)) r) ps None.

(** EGridThermalModel.cpp:87-98; two tables are compared by size and values *)
Definition tab_eqb (a b : tab) : bool :=
  (tb_w a =? tb_w b)%nat && (tb_h a =? tb_h b)%nat && text_eqb (tb_vals a) (tb_vals b).
Definition need_interpolation (ps : list (Z * tab)) : bool :=
  match ps with
  | [] => false
  | s0 :: ps' => existsb (fun s => negb (tab_eqb (snd s0) (snd s))) ps'
  end.

Inductive picture := PPower (t : Z) (data : tab) (range : option (Z * Z)) | PLayer (name : text) (data : tab).

(** EChipThermalModelIO.cpp:111-135: the pictures in the order they are made *)
Definition pictures (m : chip) : list picture :=
  (match ch_powers m with
   | None => []
   | Some ps =>
       let size := Nat.min (List.length (temps (ch_hdr m))) (List.length ps) in
       flat_map (fun t => match alookup Z.eqb t ps with Some tb => [PPower t tb (get_range ps)] | None => [] end)
                (firstn size (temps (ch_hdr m)))
   end) ++
  flat_map (fun e => match snd e with Some tb => [PLayer (fst e) tb] | None => [] end) (ch_dens m).

(** EGridThermalModelIO.cpp:78-87: the scalar a colour is made of; [None] is a division by zero *)
Definition shade (lo hi d : Z) : option Q :=
  let '(lo, hi) := if (hi <? lo)%Z then (hi, lo) else (lo, hi) in
  if (hi =? lo)%Z then None else Some (inject_Z (d - lo) / inject_Z (hi - lo))%Q.

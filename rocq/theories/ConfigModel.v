(** Model of src/sdanalysis/figures/configuration.py, and of the legend of
    figures/interactive_config.py.  What bokeh draws is not modelled. *)
From Coq Require Import String Reals ZArith List Bool.
From Verif Require Import Base RVec MotionModel MoleculeModel UtilModel.
Import ListNotations.
Open Scope R_scope.
Notation length := List.length.

(** configuration.py:28-42: the palettes hold one colour for each hue 0..359, light or dark. *)
Record colour : Set := mkcolour { c_light : bool; c_hue : Z }.

(** configuration.py:86-89 [colour_orientation]: [astype(int)] truncates; a negative index counts from the end. *)
Definition truncate (x : R) : Z := if Rlt_dec x 0 then (- Int_part (- x))%Z else Int_part x.
(* configuration.py:41-42, indexed at 88-89 *)
Definition palette (light : bool) (i : Z) : colour + exn :=
  if ((-360 <=? i) && (i <? 0))%Z then inl (mkcolour light (360 + i))
  else if ((0 <=? i) && (i <? 360))%Z then inl (mkcolour light i)
  else inr IndexError.
(* configuration.py:88-89 np.rad2deg *)
Definition rad2deg (x : R) : R := x * 180 / PI.
(* configuration.py:88-89 indexing an array with an array of indices *)
Fixpoint all_ok {A B} (f : A -> B + exn) (l : list A) : list B + exn :=
  match l with
  | [] => inl []
  | x :: l' => ebind (f x) (fun y => ebind (all_ok f l') (fun r => inl (y :: r)))
  end.
(* configuration.py:86-89 *)
Definition colour_orientation (angles : list R) (light : bool) : list colour + exn :=
  all_ok (fun a => palette light (truncate (rad2deg a))) angles.

(** An array classifying the molecules: the values as strings and as truth values, and whether
    its type is one of int, bool, float (64 bits), another numeric type, or text. *)
(* configuration.py:143 the dtype test of an ordering *)
Inductive dtype : Set := Native | Numeric | Text.
(* configuration.py:126-147 what an order function or list answers *)
Record ordering : Set := mkord { o_dtype : dtype; o_strings : list string; o_truth : list bool }.

(** [colour[mask] = light[mask]] *)
(* configuration.py:138-140, 149 assignment through a boolean mask *)
Definition assign_mask {A} (mask : list bool) (dark light : list A) : list A + exn :=
  if (length mask =? length dark)%nat
  then inl (zip (fun (m : bool) dl => if m then snd dl else fst dl) mask (combine dark light))
  else inr IndexError.

(* configuration.py:126-138 the colour column *)
Inductive colours : Set := Categories (l : list string) | Colours (l : list colour).

(** configuration.py:124-149; [order_function] stands for what the function answers for this frame *)
Definition frame_colours (angle : list R) (order_function : option (ordering + exn)) (order_list : option ordering) (categorical : bool)
  : colours + exn :=
  if categorical then
    match order_function, order_list with
    | Some (inr e), _ => inr e
    | Some (inl o), _ => inl (Categories (o_strings o))                       (* 126 *)
    | None, Some o => inl (Categories (o_strings o))                          (* 128 *)
    | None, None => inr ValueError                                            (* 130 *)
    end
  else
    ebind (colour_orientation angle false) (fun dark =>                       (* 134 *)
    match order_list, order_function with
    | Some o, _ =>
        match o_dtype o with
        | Text => inr TypeError                                               (* 136: logical_not of text *)
        | _ => ebind (colour_orientation angle true) (fun light =>
               ebind (assign_mask (map negb (o_truth o)) dark light) (fun c => inl (Colours c)))
        end
    | None, Some (inr e) => inr e
    | None, Some (inl o) =>
        ebind (colour_orientation angle true) (fun light =>
        match o_dtype o with
        | Native => ebind (assign_mask (map negb (o_truth o)) dark light) (fun c => inl (Colours c))          (* 143-144 *)
        | Text => ebind (assign_mask (map (String.eqb "liq") (o_strings o)) dark light) (fun c => inl (Colours c))   (* 147 *)
        | Numeric => inl (Colours dark)         (* 147: comparing numbers with a string is False *)
        end)
    | None, None => inl (Colours dark)
    end).

(** [np.tile(x, n)], [np.repeat(x, n)] *)
(* configuration.py:155, 157 np.tile *)
Definition tile {A} (x : list A) (n : nat) : list A := concat (repeat x n).
(* configuration.py:156 np.repeat *)
Definition np_repeat {A} (x : list A) (n : nat) : list A := concat (map (fun a => repeat a n) x).

(* configuration.py:152-158 the returned dictionary *)
Record columns : Set := mkcols {
  d_x : list R; d_y : list R; d_orientation : list R; d_radius : list R; d_colour : colours
}.

(** configuration.py:92-159 [frame2data]; [num], [offsets] and [radii] are those of the molecule, [n] is
    len(frame). *)
Definition frame2data (gimbal : quat -> v3) (position : list v3) (orientation : list quat) (n : nat)
    (order_function : option (ordering + exn)) (order_list : option ordering)
    (num : nat) (offsets : list v3) (radii : list R + exn) (categorical : bool) : columns + exn :=
  match order_function, order_list with
  | Some _, Some _ => inr ValueError                                          (* 119-120 *)
  | _, _ =>
      let angle := quaternion2z gimbal orientation in                         (* 122 *)
      ebind (frame_colours angle order_function order_list categorical) (fun c =>
      ebind (orientation2positions num offsets position orientation) (fun p =>    (* 151 *)
      ebind radii (fun r =>
      inl (mkcols (map x3 p) (map y3 p) (tile angle num)
                  (map (fun x => x * (98 / 100)) (np_repeat r n))
                  (match c with Categories l => Categories (tile l num) | Colours l => Colours (tile l num) end)))))
  end.

(** interactive_config.py:379-397, the legend: bokeh's LinearColorMapper divides the range from
    low to high evenly among the palette; the upper end belongs to the last colour. *)
Definition legend_colour (x : R) : colour :=
  mkcolour false (Z.min (Int_part ((x - - PI) * 360 / (PI - - PI))) 359).

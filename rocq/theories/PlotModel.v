(** Model of plot_circles and plot_frame, src/sdanalysis/figures/configuration.py:45-83, 162-213.

    bokeh by contract: a figure draws one circle for each row of its source; factor_cmap gives the
    rows whose class is the i-th factor the i-th colour of the palette, all other rows are gray
    (nan_color).  A source is an object that figures share.  Simplified: factors are strings; tools,
    sizes and the hover text are not modelled. *)
From Coq Require Import String Reals ZArith List Bool Arith.
From Verif Require Import Base RVec MotionModel ConfigModel.
Import ListNotations.
Open Scope string_scope.
Open Scope list_scope.
Notation length := List.length.

(** configuration.py:50, 189 [palettes.Category10_10] *)
Definition category10 : list string :=
  ["#1f77b4"; "#ff7f0e"; "#2ca02c"; "#d62728"; "#9467bd"; "#8c564b"; "#e377c2"; "#7f7f7f"; "#bcbd22"; "#17becf"].

(* configuration.py:63 insertion into a sorted list without repetition *)
Fixpoint insert (s : string) (l : list string) : list string :=
  match l with
  | [] => [s]
  | x :: l' => match String.compare s x with
               | Lt => s :: l
               | Eq => l
               | Gt => x :: insert s l'
               end
  end.
(** configuration.py:63 [np.unique] of an array of strings *)
Definition np_unique (l : list string) : list string := fold_right insert [] l.

(** configuration.py:58-67 [fill_color]: the column itself, or its factors *)
Inductive fill : Type := ByColumn | ByFactor (factors colormap : list string).
(* configuration.py:69-71 a figure: the source it draws, and the colours *)
Record plot : Type := mkplot { p_source : nat; p_fill : fill }.
(* configuration.py:205-208 the data of the sources *)
Definition sources := list columns.

(** configuration.py:45-83 [plot_circles]; the colours of a figure that is not by categories cannot
    be sorted by np.unique *)
Definition plot_circles (h : sources) (source : nat) (categorical : bool) (factors : option (list string)) (colormap : list string)
  : plot + exn :=
  if categorical then
    match factors, nth_error h source with
    | Some f, _ => inl (mkplot source (ByFactor f colormap))
    | None, Some (mkcols _ _ _ _ (Categories l)) => inl (mkplot source (ByFactor (np_unique l) colormap))
    | None, _ => inr TypeError
    end
  else inl (mkplot source ByColumn).

(* configuration.py:206 assignment of the data of a source *)
Fixpoint set_data (h : sources) (i : nat) (d : columns) : sources :=
  match h, i with
  | [], _ => []
  | _ :: h', O => d :: h'
  | x :: h', S i' => x :: set_data h' i' d
  end.

(** configuration.py:162-213 [plot_frame]; [data] is what frame2data gives (191-197).  The data of
    a source is replaced before the figure is made. *)
Definition plot_frame (h : sources) (data : columns + exn) (source : option nat) (categorical : bool)
           (factors colormap : option (list string)) : sources * (plot + exn) :=
  let colormap := match colormap with None => category10 | Some c => c end in            (* 188-189 *)
  match data with
  | inr e => (h, inr e)
  | inl d =>
      let '(h', i) := match source with
                      | Some i => (set_data h i d, i)                                    (* 205-206 *)
                      | None => (h ++ [d], length h)                                     (* 208 *)
                      end in
      (h', plot_circles h' i categorical factors colormap)
  end.

(** What is seen: a colour of the palettes of orientations, one of the colour map, gray, or a
    class that is no colour. *)
(* configuration.py:58-69 the colour of a circle *)
Inductive paint : Type := Hue (c : colour) | Mapped (c : string) | Gray | NoColour (s : string).

(* configuration.py:64-66 the place of a class among the factors *)
Fixpoint place (s : string) (factors : list string) : option nat :=
  match factors with
  | [] => None
  | f :: fs => if String.eqb s f then Some O else option_map S (place s fs)
  end.
(* configuration.py:64-66 *)
Definition mapped (factors colormap : list string) (s : string) : paint :=
  match place s factors with
  | Some i => match nth_error colormap i with Some c => Mapped c | None => Gray end
  | None => Gray
  end.
(** configuration.py:58-71: the colours of the circles of a figure, given the data of the sources *)
Definition painted (h : sources) (p : plot) : list paint :=
  match nth_error h (p_source p) with
  | None => []
  | Some d =>
      match p_fill p, d_colour d with
      | ByColumn, Colours l => map Hue l
      | ByColumn, Categories l => map NoColour l
      | ByFactor f c, Categories l => map (mapped f c) l
      | ByFactor _ _, Colours l => map (fun _ => Gray) l
      end
  end.
(* configuration.py:58-71 the places of the circles *)
Definition placed (h : sources) (p : plot) : list (R * R) :=
  match nth_error h (p_source p) with
  | None => []
  | Some d => combine (d_x d) (d_y d)
  end.

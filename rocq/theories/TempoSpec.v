(** The same trajectory in another unit of time: every step number is multiplied by [c]. *)
From Coq Require Import String Reals ZArith List Bool.
From Verif Require Import Base RVec FrameModel DynModel WriteCacheModel ProcessModel ProcessPathModel EndModel.
Import ListNotations.
Open Scope Z_scope.

Definition tempo_frame (c : Z) (f : eframe) : eframe := mkframe (c * e_ts f) (e_box f) (e_pos f) (e_ori f).
Definition tempo_film (c : Z) (l : list (list nat * eframe)) : list (list nat * eframe) :=
  map (fun x => (fst x, tempo_frame c (snd x))) l.
Definition tempo_snapshot (c : Z) (s : snapshot R) : snapshot R :=
  {| s_N := s_N s; s_body := s_body s; s_position := s_position s; s_orientation := s_orientation s;
     s_image := s_image s; s_step := c * s_step s; s_cbox := s_cbox s; s_dimensions := s_dimensions s; s_box := s_box s |}.
Definition tempo_file (c : Z) (file : list (snapshot R + exn)) : list (snapshot R + exn) :=
  map (fun x => match x with inl s => inl (tempo_snapshot c s) | inr e => inr e end) file.

(** Relaxation times; 2^32 - 1 stands for "not relaxed". *)
Definition tempo_time (c t : Z) : Z := if t =? 2 ^ 32 - 1 then t else c * t.
Definition tempo_times (c : Z) (s : dict string (list Z)) : dict string (list Z) :=
  map (fun p => (fst p, map (tempo_time c) (snd p))) s.
(** Rows: only the column "time" *)
Definition tempo_row (c : Z) (row : dict string dval) : dict string dval :=
  map (fun p => (fst p, match snd p with VInt n => if String.eqb (fst p) "time" then VInt (c * n) else VInt n | v => v end)) row.
Definition tempo_line (c : Z) (p : nat * labelled (dict string dval)) : nat * labelled (dict string dval) :=
  let o := snd p in
  (fst p, {| lb_row := tempo_row c (lb_row o); lb_keyframe := lb_keyframe o;
             lb_temperature := lb_temperature o; lb_pressure := lb_pressure o |}).
Definition tempo_table (c : Z) (t : table (nat * labelled (dict string dval))) : table (nat * labelled (dict string dval)) :=
  option_map (map (tempo_line c)) t.
Definition tempo_relax (c : Z) (r : option (list (nat * dict string (list Z)))) : option (list (nat * dict string (list Z))) :=
  option_map (map (fun p => (fst p, tempo_times c (snd p)))) r.
Definition tempo_outcome (c : Z) (o : outcome (labelled (dict string dval)) (dict string (list Z)))
  : outcome (labelled (dict string dval)) (dict string (list Z)) :=
  {| out_result := match out_result o with inl x => inl (tempo_table c x) | inr e => inr e end;
     out_table := tempo_table c (out_table o);
     out_relax := tempo_relax c (out_relax o) |}.

(** No two steps are as far apart as the number that stands for "not relaxed". *)
Definition short (c : Z) (steps : list Z) : Prop := forall s t, In s steps -> In t steps -> c * (t - s) < 2 ^ 32 - 1.
Definition steps_of (file : list (snapshot R + exn)) : list Z :=
  flat_map (fun x => match x with inl s => [s_step s] | inr _ => [] end) file.

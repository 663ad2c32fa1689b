(** The same file with other step numbers: a simulation that was continued from step [c]. *)
From Coq Require Import Reals ZArith List.
From Verif Require Import Base FrameModel LammpsSpec.

Definition late_snapshot (c : Z) (s : snapshot R) : snapshot R :=
  {| s_N := s_N s; s_body := s_body s; s_position := s_position s; s_orientation := s_orientation s;
     s_image := s_image s; s_step := s_step s + c; s_cbox := s_cbox s; s_dimensions := s_dimensions s; s_box := s_box s |}.
Definition late_file (c : Z) (file : list (snapshot R + exn)) : list (snapshot R + exn) :=
  map (fun x => match x with inl s => inl (late_snapshot c s) | inr e => inr e end) file.
Definition late_text (c : Z) (t : tframe) : tframe :=
  {| t_step := t_step t + c; t_flags := t_flags t; t_x := t_x t; t_y := t_y t; t_z := t_z t;
     t_heads := t_heads t; t_atoms := t_atoms t; t_blank := t_blank t |}.

(** Independent description of rasters with NaN and of what is found in them. *)
From Verif Require Import Base_model Raster_model Analyze_model Nan_model Feature_spec Raster_spec.

(** [m] is the same raster with the number that marks missing cells in place of
    NaN; if no cell is NaN, [m] need not have such a number. *)
Definition nan_marks (nan : xy -> bool) (m : datamap) : Prop :=
  forall p, in_map m p -> nan p = true <-> dm_nodata m = Some (elev m p).

(** A feature of a raster of numbers, as a feature of a raster that may hold NaN. *)
Definition plain (f : feature) : nfeature :=
  NFeat (ft_kind f) (ft_pos f) (Num (ft_ele f)) (ft_multi f) (ft_edge f)
    (map (fun z : pte => (pt_xy z, Num (pt_e z))) (ft_edgepts f)) (ft_hpn f).

(** The single-cell summit (and, on the border, runoff) at a NaN cell. *)
Definition nan_summit (m : datamap) (c : xy) : list nfeature :=
  if decide (on_border m c)
  then [NFeat KSummit c (NaN (Some c)) [] true [(c, NaN (Some c))] [];
        NFeat KRunoff c (NaN (Some c)) [] true [(c, NaN (Some c))] []]
  else [NFeat KSummit c (NaN (Some c)) [] false [] []].

(** What is found while the scan is at [c]: [gs] with NaN in the raster, [fs] with
    the marker in its place. *)
Definition same_but_nan (m : datamap) (nan : xy -> bool) (c : xy) (gs : list nfeature) (fs : list feature) : Prop :=
  (nan c = true -> fs = [] /\ gs = nan_summit m c) /\
  (nan c = false -> ~ on_edge m c \/ peak m c -> gs = map plain fs).

(** On the lines through the border cells, inside the map or not. *)
Definition border_line (m : datamap) (p : xy) : Prop :=
  p.1 = 0 \/ p.2 = 0 \/ p.1 = dm_max_x m \/ p.2 = dm_max_y m.

(** [q] touches the flat area of [p] but does not belong to it. *)
Definition beside (m : datamap) (p q : xy) : Prop :=
  ~ same_flat m p q /\ exists c, same_flat m p c /\ adj8 c q.

(** [q] is a NaN border cell beside the flat area of [p] that touches no other cell
    beside that area on the border lines. *)
Definition lone_nan (m : datamap) (nan : xy -> bool) (p q : xy) : Prop :=
  on_border m q /\ nan q = true /\ beside m p q /\
  forall r, beside m p r -> border_line m r -> ~ adj8 r q.

(** All numbers of the group are below [e]. *)
Definition numbers_below (e : Z) (g : list npt) : Prop := forall q z, (q, Num z) ∈ g -> z < e.
Global Instance numbers_below_dec e g : Decision (numbers_below e g).
Proof.
  refine (cast_if (decide (forallb (fun p : npt => match p.2 with Num z => z <? e | NaN _ => true end) g = true))).
  - intros q z Hin. rewrite forallb_forall in e0. apply elem_of_list_In in Hin. apply Z.ltb_lt. exact (e0 _ Hin).
  - intros H. apply n. apply forallb_forall. intros [q [z|c]] Hin; [|done]. apply Z.ltb_lt. apply (H q). by apply elem_of_list_In.
Defined.

(** Writing segments as commands keeps the drawing. *)
From Coq Require Import List NArith ZArith QArith Qcanon Bool Arith Lia Field.
From Verif Require Import PathModel SegmentModel SegmentSpec SegmentProofs.
Import ListNotations.
Local Close Scope Q_scope.
Local Open Scope nat_scope.

(** ** The grid *)
Lemma round_half_whole q n : (q == inject_Z n)%Q -> round_half q = n.
Proof.
  intros E. unfold Qeq in E. cbn in E. rewrite Z.mul_1_r in E. unfold round_half.
  destruct (0 <=? Qnum q)%Z; rewrite E.
  - replace (2 * (n * Z.pos (Qden q)) + Z.pos (Qden q))%Z with (n * (2 * Z.pos (Qden q)) + Z.pos (Qden q))%Z by ring.
    rewrite Z.div_add_l by lia. rewrite Z.div_small; lia.
  - replace (- (2 * (n * Z.pos (Qden q))) + Z.pos (Qden q))%Z with ((- n) * (2 * Z.pos (Qden q)) + Z.pos (Qden q))%Z by ring.
    rewrite Z.div_add_l by lia. rewrite Z.div_small; lia.
Qed.
Lemma scale_grid p n : scale p (Q2Qc (Qmake n (pow10 p))) = n.
Proof.
  unfold scale. apply round_half_whole. cbn [this Q2Qc]. rewrite Qred_correct.
  unfold Qeq, Qmult, inject_Z. cbn [Qnum Qden]. rewrite Pos2Z.inj_mul. ring.
Qed.
Lemma rnd_grid p x : on_grid p x -> rnd p x = x.
Proof. intros [n ->]. unfold rnd. rewrite scale_grid. reflexivity. Qed.
Lemma grid_sub p x y : on_grid p x -> on_grid p y -> on_grid p (x - y)%Qc.
Proof.
  intros [n ->] [m ->]. exists (n - m)%Z. apply Qc_is_canon. cbn [this Q2Qc Qcminus Qcplus Qcopp].
  rewrite !Qred_correct. unfold Qeq, Qplus, Qopp. cbn [Qnum Qden]. rewrite ?Pos2Z.inj_mul. ring.
Qed.
Lemma round_grid p a : grid_point p a -> round_point p a = a.
Proof. intros [A B]. apply point_eq; cbn; apply rnd_grid; assumption. Qed.
Lemma grid_psub p a b : grid_point p a -> grid_point p b -> grid_point p (psub a b).
Proof. intros [A B] [C D]. split; apply grid_sub; assumption. Qed.

Lemma to_back a b : to_ true a (psub b a) = b.
Proof. apply point_eq; cbn; ring. Qed.

(** ** Choosing the shortest *)
Lemma min_by_in lt l b : In (min_by lt b l) (b :: l).
Proof.
  revert b. induction l as [|a l IH]; intros b; [left; reflexivity|]. cbn [min_by].
  destruct (IH (if lt a b then a else b)) as [E|I]; [|right; right; exact I].
  rewrite <- E. destruct (lt a b); [right; left|left]; reflexivity.
Qed.
Lemma compactest_in t prev l imp o : compactest t prev l imp = Some o ->
  exists c, In c l /\ snd o = round_cmd (precision t) c.
Proof.
  unfold compactest. destruct l as [|c l]; [discriminate|]. cbn [map]. intros E. injection E as E.
  match type of E with min_by ?f ?b ?m = _ => generalize (min_by_in f m b) end.
  rewrite E. intros [<-|I].
  - exists c. split; [left|]; reflexivity.
  - apply in_map_iff in I. destruct I as (c' & <- & I). exists c'. split; [right; exact I|reflexivity].
Qed.
Lemma compactest_some t prev l imp : l <> [] -> exists o, compactest t prev l imp = Some o.
Proof. intros N. unfold compactest. destruct l as [|c l]; [congruence|]. cbn [map]. eexists. reflexivity. Qed.

(** ** Lines *)
Lemma line_step t prev start a b imp s :
  grid_point (precision t) a -> grid_point (precision t) b -> (a = b -> a = start) ->
  cur s = a -> sub s = start ->
  exists o, to_svg_line t prev start a b imp = Some o /\ step (snd o) s = ([ELine a b], Pen b start NoHandle).
Proof.
  intros Ga Gb Z Ca Ss. unfold to_svg_line.
  destruct (point_eqb a b) eqn:E1.
  { apply point_eqb_iff in E1. exists (false, Close). split; [reflexivity|]. cbn. rewrite Ca, Ss. specialize (Z E1). congruence. }
  rewrite (rnd_grid _ _ (proj1 Ga)), (rnd_grid _ _ (proj1 Gb)), (rnd_grid _ _ (proj2 Ga)), (rnd_grid _ _ (proj2 Gb)).
  pose proof (grid_psub _ _ _ Gb Ga) as [Gx Gy].
  destruct (Qc_eq_bool (px b) (px a)) eqn:E2.
  { apply Qc_eq_bool_iff in E2.
    destruct (compactest_some t prev [Ver true (py (psub b a)); Ver false (py b)] imp) as [o O]; [discriminate|].
    exists o. split; [exact O|]. apply compactest_in in O. destruct O as (c & [<-|[<-|[]]] & ->); cbn [round_cmd].
    - rewrite (rnd_grid _ _ Gy). cbn [step]. rewrite Ca, Ss.
      assert (E : P (px a) (py a + py (psub b a))%Qc = b) by (apply point_eq; cbn; [congruence|ring]). rewrite E. reflexivity.
    - rewrite (rnd_grid _ _ (proj2 Gb)). cbn [step]. rewrite Ca, Ss.
      assert (E : P (px a) (py b) = b) by (apply point_eq; cbn; congruence). rewrite E. reflexivity. }
  destruct (Qc_eq_bool (py b) (py a)) eqn:E3.
  { apply Qc_eq_bool_iff in E3.
    destruct (compactest_some t prev [Hor true (px (psub b a)); Hor false (px b)] imp) as [o O]; [discriminate|].
    exists o. split; [exact O|]. apply compactest_in in O. destruct O as (c & [<-|[<-|[]]] & ->); cbn [round_cmd].
    - rewrite (rnd_grid _ _ Gx). cbn [step]. rewrite Ca, Ss.
      assert (E : P (px a + px (psub b a))%Qc (py a) = b) by (apply point_eq; cbn; [ring|congruence]). rewrite E. reflexivity.
    - rewrite (rnd_grid _ _ (proj1 Gb)). cbn [step]. rewrite Ca, Ss.
      assert (E : P (px b) (py a) = b) by (apply point_eq; cbn; congruence). rewrite E. reflexivity. }
  destruct (point_eqb b start) eqn:E4.
  { apply point_eqb_iff in E4. exists (false, Close). split; [reflexivity|]. cbn. rewrite Ca, Ss. congruence. }
  destruct (compactest_some t prev [Line true (psub b a); Line false b] imp) as [o O]; [discriminate|].
  exists o. split; [exact O|]. apply compactest_in in O. destruct O as (c & [<-|[<-|[]]] & ->); cbn [round_cmd].
  - rewrite (round_grid _ (psub b a)) by (split; assumption). cbn [step]. rewrite Ca, Ss, to_back. reflexivity.
  - rewrite (round_grid _ b) by exact Gb. cbn [step]. rewrite Ss, Ca. reflexivity.
Qed.

(** ** Curves *)
(** The control point kept while writing, and the handle of the pen, against what came before. *)
Definition keeps (t : tolerance) (w : ahead) (control : option point) (h : handle) (a : point) (l : list sdata) : Prop :=
  match w with
  | Fresh => control = None /\ h = NoHandle
  | AfterCubic k => control = Some k /\ h = CubicHandle k
  | AfterQuad k => control = Some k /\
      (h = QuadHandle k \/
       match l with
       | CurveTo n1 n2 np :: _ => looks_quad t a n1 n2 np = true -> near t (quad_from_start a n1) (mirror k a) = false
       | _ => True
       end)
  | AfterSegment k => control = Some k
  end.

Lemma quad_control_is t c1 c2 b a :
  quad_control t c1 c2 b a = if looks_quad t a c1 c2 b then Some (quad_from_start a c1) else None.
Proof. reflexivity. Qed.

Lemma from_quad a c1 c2 b : quad_from_start a c1 = quad_from_end b c2 ->
  same_edge (EQuad a (quad_from_start a c1) b) (ECubic a c1 c2 b).
Proof.
  intros E. set (q := quad_from_start a c1) in *.
  assert (E1 : c1 = padd a (pmul (psub q a) two_thirds)).
  { apply point_eq; cbn; ring [third_half]. }
  assert (E2 : c2 = padd b (pmul (psub q b) two_thirds)).
  { rewrite E. apply point_eq; cbn; ring [third_half]. }
  rewrite E1, E2. apply elevate.
Qed.

Lemma curve_step t prev control a c1 c2 b l imp s w :
  grid_point (precision t) a -> curve_ok t w a c1 c2 b -> keeps t w control (hand s) a (CurveTo c1 c2 b :: l) ->
  cur s = a ->
  exists o control' e,
    to_svg_curve t prev control a c1 c2 b (hd_error l) imp = Some (o, control') /\
    fst (step (snd o) s) = [e] /\ same_edge (ECubic a c1 c2 b) e /\ seen e = true /\
    cur (snd (step (snd o) s)) = b /\ sub (snd (step (snd o) s)) = sub s /\
    keeps t (after_data t a (CurveTo c1 c2 b)) control' (hand (snd (step (snd o) s))) b l /\
    snd o <> Close.
Proof.
  intros Ga (G1 & G2 & Gb & Gq & Hw) K Ca. unfold to_svg_curve. rewrite quad_control_is.
  cbn [after_data]. set (p := precision t) in *. set (q := quad_from_start a c1) in *.
  set (lq := looks_quad t a c1 c2 b) in *.
  pose proof (grid_psub _ _ _ Gb Ga) as Gba. pose proof (grid_psub _ _ _ G1 Ga) as G1a. pose proof (grid_psub _ _ _ G2 Ga) as G2a.
  set (squad := match (if lq then Some q else None) with Some q => smooth_quad t a control q | None => false end).
  set (next_smooth := match (if lq then Some q else None), hd_error l with
    | Some q, Some (CurveTo n1 n2 np) => match quad_control t n1 n2 np b with Some c => smooth_quad t b (Some q) c | None => false end
    | _, _ => false end).
  set (cubics := if is_smooth t c1 a control then _ else _).
  (* what the writer keeps after a cubic form *)
  assert (After : next_smooth = false ->
     keeps t (if lq then AfterQuad q else AfterCubic c2) (Some (match (if lq then Some q else None) with Some q => q | None => c2 end))
       (CubicHandle c2) b l).
  { intros N. destruct lq; cbn [keeps].
    - split; [reflexivity|]. right. destruct l as [|[|n1 n2 np|] l]; try exact Logic.I.
      intros Lq. subst next_smooth. cbn [hd_error] in N. rewrite quad_control_is, Lq in N. cbn [smooth_quad] in N.
      rewrite mirror_reflect in N. exact N.
    - split; reflexivity. }
  assert (Quadratic : squad = true -> lq = true /\ hand s = QuadHandle (match control with Some k => k | None => a end) /\
            control <> None /\ q = mirror (match control with Some k => k | None => a end) a).
  { intros S. unfold squad in S. destruct lq eqn:Lq; [|discriminate]. split; [reflexivity|].
    destruct w as [|k|k|k]; cbn [keeps] in K.
    - destruct K as [-> _]. discriminate S.
    - destruct K as [-> _]. cbn [smooth_quad] in S. rewrite mirror_reflect in S. destruct Hw as [_ Hw]. unfold apart in Hw. fold q in Hw. rewrite Hw in S; [discriminate|reflexivity].
    - destruct K as [-> K]. cbn [smooth_quad] in S. rewrite mirror_reflect in S. destruct Hw as [_ Hw].
      split; [|split; [discriminate|]].
      + destruct K as [K|K]; [exact K|]. specialize (K Lq). fold q in K. congruence.
      + apply (Hw eq_refl). exact S.
    - rewrite K in S. cbn [smooth_quad] in S. rewrite mirror_reflect in S. destruct Hw as [_ Hw]. unfold apart in Hw. fold q in Hw. rewrite Hw in S; [discriminate|reflexivity]. }
  assert (Sm : is_smooth t c1 a control = true ->
          c1 = match hand s with CubicHandle k => mirror k a | _ => a end).
  { unfold is_smooth. intros S. destruct w as [|k|k|k]; cbn [keeps] in K.
    - destruct K as [-> ->]. apply Hw. exact S.
    - destruct K as [-> ->]. apply Hw. rewrite <- mirror_reflect. exact S.
    - destruct K as [-> _]. destruct Hw as [Hw _]. unfold apart in Hw. rewrite mirror_reflect in S. congruence.
    - rewrite K in S. destruct Hw as [Hw _]. unfold apart in Hw. rewrite mirror_reflect in S. congruence. }
  (* the candidates are not empty *)
  match goal with |- context [compactest t prev (?cs ++ ?qs) imp] => set (cands := cs); set (quads := qs) end.
  assert (Ne : cands ++ quads <> []).
  { destruct next_smooth eqn:N.
    - unfold quads. destruct lq eqn:Lq; [destruct squad; discriminate|]. subst next_smooth. cbn in N. discriminate N.
    - unfold cands, cubics. destruct (is_smooth t c1 a control); discriminate. }
  destruct (compactest_some t prev (cands ++ quads) imp Ne) as [o O]. rewrite O.
  apply compactest_in in O. destruct O as (c & I & E). fold p in E. cbn [option_map].
  eexists o, _, (hd (ELine a a) (fst (step (snd o) s))). split; [reflexivity|].
  apply in_app_or in I. destruct I as [I|I].
  - assert (N : next_smooth = false) by (destruct next_smooth; [destruct I|reflexivity]).
    specialize (After N). unfold cands in I. rewrite N in I. unfold cubics in I.
    destruct (is_smooth t c1 a control) eqn:S.
    + specialize (Sm eq_refl). destruct I as [<-|[<-|[]]]; cbn [round_cmd] in E.
      * rewrite (round_grid _ _ G2a), (round_grid _ _ Gba) in E. rewrite E. cbn [step fst snd hand cur sub hd].
        rewrite Ca, !to_back. split; [reflexivity|]. split; [rewrite <- Sm; apply same_refl|].
        split; [reflexivity|]. split; [reflexivity|]. split; [reflexivity|]. split; [exact After|discriminate].
      * rewrite (round_grid _ _ G2), (round_grid _ _ Gb) in E. rewrite E. cbn [step fst snd hand cur sub hd to_].
        rewrite Ca. split; [reflexivity|]. split; [rewrite <- Sm; apply same_refl|].
        split; [reflexivity|]. split; [reflexivity|]. split; [reflexivity|]. split; [exact After|discriminate].
    + destruct I as [<-|[<-|[]]]; cbn [round_cmd] in E.
      * rewrite (round_grid _ _ G1a), (round_grid _ _ G2a), (round_grid _ _ Gba) in E. rewrite E. cbn [step fst snd hand cur sub hd].
        rewrite Ca, !to_back. split; [reflexivity|]. split; [apply same_refl|].
        split; [reflexivity|]. split; [reflexivity|]. split; [reflexivity|]. split; [exact After|discriminate].
      * rewrite (round_grid _ _ G1), (round_grid _ _ G2), (round_grid _ _ Gb) in E. rewrite E. cbn [step fst snd hand cur sub hd to_].
        rewrite Ca. split; [reflexivity|]. split; [apply same_refl|].
        split; [reflexivity|]. split; [reflexivity|]. split; [reflexivity|]. split; [exact After|discriminate].
  - unfold quads in I. destruct squad eqn:Sq.
    + destruct (Quadratic eq_refl) as (Lq & Hh & Nc & Eq). destruct control as [k|]; [|congruence].
      destruct (Gq Lq) as [Gq1 Gq2].
      assert (Ed : same_edge (ECubic a c1 c2 b) (EQuad a (mirror k a) b)).
      { apply same_sym. rewrite <- Eq. apply from_quad. exact Gq1. }
      assert (Kp : keeps t (if lq then AfterQuad q else AfterCubic c2) (Some (reflect k a)) (QuadHandle (mirror k a)) b l).
      { rewrite Lq. cbn [keeps]. rewrite mirror_reflect, <- Eq. split; [reflexivity|left; reflexivity]. }
      destruct I as [<-|[<-|[]]]; cbn [round_cmd] in E.
      * rewrite (round_grid _ _ Gba) in E. rewrite E. cbn [step fst snd hand cur sub hd]. rewrite Ca, Hh, to_back.
        split; [reflexivity|]. split; [exact Ed|]. split; [reflexivity|]. split; [reflexivity|]. split; [reflexivity|]. split; [exact Kp|discriminate].
      * rewrite (round_grid _ _ Gb) in E. rewrite E. cbn [step fst snd hand cur sub hd to_]. rewrite Ca, Hh.
        split; [reflexivity|]. split; [exact Ed|]. split; [reflexivity|]. split; [reflexivity|]. split; [reflexivity|]. split; [exact Kp|discriminate].
    + destruct lq eqn:Lq; [|destruct I]. destruct (Gq eq_refl) as [Gq1 Gq2]. fold q in Gq1, Gq2.
      pose proof (grid_psub _ _ _ Gq2 Ga) as Gqa.
      assert (Ed : same_edge (ECubic a c1 c2 b) (EQuad a q b)).
      { apply same_sym. apply from_quad. exact Gq1. }
      destruct I as [<-|[<-|[]]]; cbn [round_cmd] in E.
      * rewrite (round_grid _ _ Gqa), (round_grid _ _ Gba) in E. rewrite E. cbn [step fst snd hand cur sub hd]. rewrite Ca, !to_back.
        split; [reflexivity|]. split; [exact Ed|]. split; [reflexivity|]. split; [reflexivity|]. split; [reflexivity|].
        split; [split; [reflexivity|left; reflexivity]|discriminate].
      * rewrite (round_grid _ _ Gq2), (round_grid _ _ Gb) in E. rewrite E. cbn [step fst snd hand cur sub hd to_]. rewrite Ca.
        split; [reflexivity|]. split; [exact Ed|]. split; [reflexivity|]. split; [reflexivity|]. split; [reflexivity|].
        split; [split; [reflexivity|left; reflexivity]|discriminate].
Qed.

(** ** One piece of data *)
Definition leaves (w : ahead) (control : option point) : Prop :=
  match w with Fresh => control = None | AfterCubic k | AfterQuad k | AfterSegment k => control = Some k end.
Lemma keeps_leaves t w c h a l : keeps t w c h a l -> leaves w c.
Proof. destruct w; cbn; tauto. Qed.

(** What [to_svg_data] writes for a piece of data. *)
Definition write_one (t : tolerance) (g : segment) (d : sdata) (l : list sdata) (prev : option out) (a : point) (control : option point) : option (out * option point) :=
  let implicit := match prev with Some o => Some (next_implicit (id_of (snd o))) | None => None end in
  match d with
  | LineTo to => match to_svg_line t prev (s_start g) a to implicit with
                 | Some o => Some (o, None)
                 | None => None
                 end
  | ArcTo _ _ _ _ _ _ => None
  | CurveTo c1 c2 to => to_svg_curve t prev control a c1 c2 to (hd_error l) implicit
  end.

Lemma write_one_step t g d l prev a control s w :
  grid_point (precision t) a -> data_ok t (s_start g) w a (d :: l) -> keeps t w control (hand s) a (d :: l) ->
  cur s = a -> sub s = s_start g ->
  exists o control' e,
    write_one t g d l prev a control = Some (o, control') /\
    fst (step (snd o) s) = [e] /\ same_edge (data_edge a d) e /\ seen (data_edge a d) = seen e /\
    cur (snd (step (snd o) s)) = end_point d /\ sub (snd (step (snd o) s)) = s_start g /\
    keeps t (after_data t a d) control' (hand (snd (step (snd o) s))) (end_point d) l /\
    grid_point (precision t) (end_point d) /\
    (snd o = Close -> end_point d = s_start g).
Proof.
  intros Ga [H _] K Ca Ss. destruct d as [b|c1 c2 b|]; [| |destruct H].
  - destruct H as [Gb Z].
    destruct (line_step t prev (s_start g) a b (match prev with Some o => Some (next_implicit (id_of (snd o))) | None => None end) s Ga Gb Z Ca Ss)
      as (o & O & St).
    exists o, None, (ELine a b). unfold write_one. rewrite O, St. cbn [fst snd cur sub hand data_edge end_point after_data keeps].
    split; [reflexivity|]. split; [reflexivity|]. split; [apply same_refl|]. split; [reflexivity|]. split; [reflexivity|].
    split; [reflexivity|]. split; [split; reflexivity|]. split; [exact Gb|].
    intros E. rewrite E in St. cbn [step] in St. injection St as _ _ St _. congruence.
  - destruct (curve_step t prev control a c1 c2 b l (match prev with Some o => Some (next_implicit (id_of (snd o))) | None => None end) s w Ga H K Ca)
      as (o & control' & e & O & St & Sm & Se & Cu & Su & K' & N).
    exists o, control', e. unfold write_one. rewrite O. cbn [data_edge end_point seen].
    split; [reflexivity|]. split; [exact St|]. split; [exact Sm|]. split; [symmetry; exact Se|]. split; [exact Cu|].
    split; [congruence|]. split; [exact K'|]. split; [apply H|]. contradiction.
Qed.

Lemma to_svg_data_cons t g by_ d l prev a control :
  to_svg_data t g by_ (d :: l) prev a control =
  match write_one t g d l prev a control with
  | None => None
  | Some (o, control) =>
    let written := match prev with None => with_move t (s_start g) by_ o | Some _ => [o] end in
    let close := s_closed g && (match l with [] => true | _ => false end) && negb (id_eqb (id_of (snd o)) PathModel.ClosePath) in
    let written := if close then written ++ [(false, Close)] else written in
    match to_svg_data t g by_ l (Some o) (end_point d) control with
    | None => None
    | Some (rest, control) => Some (written ++ rest, control)
    end
  end.
Proof. reflexivity. Qed.

Lemma is_close_id c : id_eqb (id_of c) PathModel.ClosePath = true <-> c = Close.
Proof. split; [|intros ->; reflexivity]. destruct c; try (destruct rel); cbn; try discriminate; reflexivity. Qed.

(** The line back to the start that a closed segment adds. *)
Definition closing (g : segment) (a : point) (l : list sdata) : list edge :=
  match l with [] => [] | _ => if s_closed g then [ELine (data_end a l) (s_start g)] else [] end.
Definition final (g : segment) (a : point) (l : list sdata) : point :=
  match l with [] => a | _ => if s_closed g then s_start g else data_end a l end.

Lemma closing_step g d (l : list sdata) (o : out) s :
  cur s = end_point d -> sub s = s_start g ->
  (snd o = Close -> end_point d = s_start g) ->
  let close := s_closed g && (match l with [] => true | _ => false end) && negb (id_eqb (id_of (snd o)) PathModel.ClosePath) in
  let s' := if close then snd (step Close s) else s in
  same_drawing (if close then fst (step Close s) else []) (match l with [] => closing g (end_point d) [d] | _ => [] end) /\
  sub s' = s_start g /\
  cur s' = (match l with [] => if s_closed g then s_start g else end_point d | _ => end_point d end) /\
  (l <> [] -> s' = s).
Proof.
  intros Cu Su H close s'. unfold closing. cbn [data_end].
  destruct l as [|d' l].
  - subst close s'. destruct (s_closed g) eqn:Cl; cbn [andb].
    + destruct (id_eqb (id_of (snd o)) PathModel.ClosePath) eqn:E; cbn [negb].
      * apply is_close_id in E. rewrite (H E) in *. split; [apply drawing_sym; apply unseen|].
        split; [exact Su|]. split; [exact Cu|]. congruence.
      * cbn [step fst snd sub cur]. rewrite Cu, Su. split; [apply drawing_refl|]. split; [reflexivity|]. split; [reflexivity|]. congruence.
    + split; [apply drawing_refl|]. split; [exact Su|]. split; [exact Cu|]. congruence.
  - subst close s'. rewrite andb_false_r. cbn [andb]. split; [apply drawing_refl|]. split; [exact Su|]. split; [exact Cu|]. reflexivity.
Qed.

Lemma run_closing (c : bool) (x : cmd) (l : list cmd) s m : m = l ++ (if c then [Close] else []) -> l = [x] ->
  run s m = fst (step x s) ++ (if c then fst (step Close (snd (step x s))) else []).
Proof. intros -> ->. destruct c; cbn [app run]; rewrite ?app_nil_r; reflexivity. Qed.

Lemma run_cons s c l : run s (c :: l) = fst (step c s) ++ run (snd (step c s)) l.
Proof. reflexivity. Qed.
Lemma run_of s (l m : list cmd) : m = l -> run s m = run s l.
Proof. intros ->. reflexivity. Qed.
Lemma pen_of s (l m : list cmd) : m = l -> pen_after s m = pen_after s l.
Proof. intros ->. reflexivity. Qed.

Lemma to_svg_data_spec t g by_ : forall l prev a control s w,
  grid_point (precision t) a -> data_ok t (s_start g) w a l -> keeps t w control (hand s) a l ->
  cur s = a -> sub s = s_start g ->
  exists o control',
    to_svg_data t g by_ l (Some prev) a control = Some (o, control') /\
    same_drawing (data_edges a l ++ closing g a l) (run s (map snd o)) /\
    cur (pen_after s (map snd o)) = final g a l /\
    leaves (after_all t w a l) control' /\ grid_point (precision t) (data_end a l).
Proof.
  induction l as [|d l IH]; intros prev a control s w Ga H K Ca Ss.
  - exists [], control. split; [reflexivity|]. split; [apply drawing_refl|]. split; [exact Ca|]. split; [apply (keeps_leaves _ _ _ _ _ _ K)|exact Ga].
  - destruct (write_one_step t g d l (Some prev) a control s w Ga H K Ca Ss)
      as (o & control1 & e & O & St & Sm & Se & Cu & Su & K' & G' & Z).
    rewrite to_svg_data_cons, O. cbv zeta.
    destruct (closing_step g d l o (snd (step (snd o) s)) Cu Su Z) as (D1 & D2 & D3 & D4).
    set (close := s_closed g && _ && _) in *.
    destruct H as [_ H].
    destruct (IH o (end_point d) control1 (snd (step (snd o) s)) (after_data t a d) G' H K' Cu Su)
      as (r & control' & R & E1 & E2 & E3 & E4). rewrite R.
    eexists _, _. split; [reflexivity|].
    cbn [data_edges data_end after_all].
    destruct l as [|d' l].
    + assert (r = []) as -> by (cbn in R; injection R as <- _; reflexivity).
      rewrite app_nil_r. cbn [data_edges app]. split; [|split; [|split; [exact E3|exact E4]]].
      * rewrite (run_closing close (snd o) [snd o]); [|destruct close; reflexivity|reflexivity].
        rewrite St. cbn [app]. apply drawing_cons; [exact Sm|exact Se|]. apply drawing_sym. exact D1.
      * unfold final. cbn [data_end]. rewrite <- D3. destruct close; reflexivity.
    + assert (close = false) as ->.
      { unfold close. rewrite andb_false_r. reflexivity. }
      cbn [app map]. split; [|split; [exact E2|split; [exact E3|exact E4]]].
      cbn [run]. rewrite St. cbn [app]. apply drawing_cons; [exact Sm|exact Se|]. exact E1.
Qed.

Lemma with_move_snd t start by_ o : exists m,
  map snd (with_move t start by_ o) = [m; snd o] /\
  (m = Move false (round_point (precision t) start) \/ m = Move true (round_point (precision t) by_)).
Proof. unfold with_move. destruct (snd o) as [| |[]| | | | | | |] eqn:E; cbn; eexists; rewrite ?E; split; eauto. Qed.

(** ** A whole segment *)
Lemma segment_spec t g e control s w :
  grid_point (precision t) (s_start g) -> s_data g <> [] ->
  data_ok t (s_start g) w (s_start g) (s_data g) ->
  match w with Fresh => True | AfterSegment _ => True | _ => False end -> leaves w control ->
  grid_point (precision t) e -> cur s = e ->
  exists o control',
    to_svg_data t g (psub (s_start g) e) (s_data g) None (s_start g) control = Some (o, control') /\
    same_drawing (segment_edges g) (run s (map snd o)) /\
    cur (pen_after s (map snd o)) = segment_end g /\
    leaves (outlive (after_all t w (s_start g) (s_data g))) control' /\
    grid_point (precision t) (segment_end g).
Proof.
  intros Gs Ne H Hw Lv Ge Ce. set (by_ := psub (s_start g) e).
  unfold segment_edges, segment_end. rewrite <- data_end_last.
  assert (Cl : forall l, l <> [] -> closing g (s_start g) l = if s_closed g then [ELine (data_end (s_start g) l) (s_start g)] else [])
    by (intros [|x l] N; [congruence|reflexivity]).
  rewrite <- (Cl _ Ne).
  assert (Fi : forall l, l <> [] -> final g (s_start g) l = if s_closed g then s_start g else data_end (s_start g) l)
    by (intros [|x l] N; [congruence|reflexivity]).
  rewrite <- (Fi _ Ne). clear Cl Fi.
  destruct (s_data g) as [|d l]; [congruence|]. clear Ne. rewrite to_svg_data_cons.
  set (s0 := Pen (s_start g) (s_start g) NoHandle).
  assert (K : keeps t w control (hand s0) (s_start g) (d :: l)).
  { destruct w; try contradiction; cbn in *; auto. }
  destruct (write_one_step t g d l None (s_start g) control s0 w Gs H K eq_refl eq_refl)
      as (o & control1 & e1 & O & St & Sm & Se & Cu & Su & K' & G' & Z).
  rewrite O. cbv zeta.
  destruct (closing_step g d l o (snd (step (snd o) s0)) Cu Su Z) as (D1 & D2 & D3 & D4).
  set (close := s_closed g && _ && _) in *.
  destruct H as [_ H].
  destruct (to_svg_data_spec t g by_ l o (end_point d) control1 (snd (step (snd o) s0)) (after_data t (s_start g) d) G' H K' Cu Su)
      as (r & control' & R & E1 & E2 & E3 & E4). rewrite R.
  eexists _, _. split; [reflexivity|].
  destruct (with_move_snd t (s_start g) by_ o) as (m & Wm & Hm).
  assert (Sm0 : step m s = ([], s0)).
  { destruct Hm as [->| ->]; cbn [step].
    - rewrite round_grid by exact Gs. reflexivity.
    - rewrite round_grid by (apply grid_psub; assumption). rewrite Ce. unfold by_. rewrite to_back. reflexivity. }
  cbn [data_edges data_end after_all].
  assert (Lo : leaves (outlive (after_all t (after_data t (s_start g) d) (end_point d) l)) control').
  { destruct (after_all _ _ _ _); exact E3. }
  assert (Gf : grid_point (precision t) (final g (s_start g) (d :: l))).
  { unfold final. cbn [data_end]. destruct (s_closed g); assumption. }
  destruct l as [|d' l].
  - assert (r = []) as -> by (cbn in R; injection R as <- _; reflexivity).
    rewrite app_nil_r.
    assert (M : map snd (if close then with_move t (s_start g) by_ o ++ [(false, Close)] else with_move t (s_start g) by_ o)
      = m :: snd o :: (if close then [Close] else [])) by (destruct close; [etransitivity; [apply map_app|]; exact (f_equal (fun x => x ++ [Close]) Wm)|exact Wm]).
    split; [|split; [|split; [exact Lo|exact Gf]]].
    + rewrite (run_of s (m :: snd o :: (if close then [Close] else []))); [|exact M]. rewrite run_cons, Sm0. cbn [fst snd app data_edges].
      rewrite (run_closing close (snd o) [snd o]); [|destruct close; reflexivity|reflexivity].
      rewrite St. cbn [app]. apply drawing_cons; [exact Sm|exact Se|]. apply drawing_sym. exact D1.
    + rewrite (pen_of s (m :: snd o :: (if close then [Close] else []))); [|exact M].
      cbn [pen_after]. rewrite Sm0. cbn [snd]. unfold final. cbn [data_end]. rewrite <- D3. destruct close; reflexivity.
  - assert (close = false) as -> by (unfold close; rewrite andb_false_r; reflexivity).
    assert (M : map snd (with_move t (s_start g) by_ o ++ r) = m :: snd o :: map snd r)
      by (etransitivity; [apply map_app|]; exact (f_equal (fun x => x ++ map snd r) Wm)).
    split; [|split; [|split; [exact Lo|exact Gf]]].
    + rewrite (run_of s (m :: snd o :: map snd r)); [|exact M]. cbn [run]. rewrite Sm0. cbn [fst snd app]. rewrite St. cbn [app]. apply drawing_cons; [exact Sm|exact Se|]. exact E1.
    + rewrite (pen_of s (m :: snd o :: map snd r)); [|exact M]. cbn [pen_after]. rewrite Sm0. cbn [snd]. exact E2.
Qed.

Lemma to_svg_loop_spec t : forall gs e control s w,
  segments_ok t w gs -> match w with Fresh => True | AfterSegment _ => True | _ => False end -> leaves w control ->
  grid_point (precision t) (match e with Some e => e | None => origin end) -> cur s = match e with Some e => e | None => origin end ->
  exists o, to_svg_loop t gs e control = Some o /\ same_drawing (segments_drawing gs) (run s (map snd o)).
Proof.
  induction gs as [|g gs IH]; intros e control s w H Hw Lv Ge Ce.
  - exists []. split; [reflexivity|apply drawing_refl].
  - destruct H as (Gs & Hd & H). cbn [to_svg_loop].
    set (e' := match e with Some e => e | None => origin end) in *.
    assert (By : match e with Some e => psub (s_start g) e | None => s_start g end = psub (s_start g) e').
    { subst e'. destruct e; [reflexivity|]. apply point_eq; cbn; ring. }
    rewrite By. clear By. unfold segments_drawing. cbn [map concat].
    destruct (s_data g) as [|d l] eqn:Ed.
    + set (s1 := snd (step (Move false (round_point (precision t) (s_start g))) s)).
      assert (C1 : cur s1 = segment_end g).
      { subst s1. cbn [step snd cur to_]. rewrite round_grid by exact Gs. unfold segment_end. rewrite Ed. destruct (s_closed g); reflexivity. }
      assert (G1 : grid_point (precision t) (segment_end g)).
      { unfold segment_end. rewrite Ed. destruct (s_closed g); exact Gs. }
      destruct (IH (Some (segment_end g)) None s1 Fresh H Logic.I eq_refl G1 C1) as (o & O & D). rewrite O.
      eexists. split; [reflexivity|]. cbn [app map run step fst snd]. unfold segment_edges. rewrite Ed. cbn [data_edges app].
      eapply drawing_trans; [|exact D]. destruct (s_closed g); cbn [app data_end]; [apply unseen|apply drawing_refl].
    + rewrite <- Ed in Hd, H |- *.
      destruct (segment_spec t g e' control s w Gs) as (o & control' & O & D & C & L & G); [congruence|exact Hd|exact Hw|exact Lv|exact Ge|exact Ce|].
      rewrite Ed in O |- *. rewrite O. rewrite Ed in H. rewrite <- Ed in H.
      destruct (IH (Some (segment_end g)) control' (pen_after s (map snd o)) _ H) as (o' & O' & D').
      { destruct (after_all _ _ _ _); exact Logic.I. }
      { exact L. }
      { exact G. }
      { exact C. }
      rewrite O'. eexists. split; [reflexivity|]. rewrite map_app, run_app. apply drawing_app; assumption.
Qed.

Lemma to_svg_spec t gs : writable t gs ->
  exists o, to_svg t gs = Some o /\ same_drawing (segments_drawing gs) (drawing (map snd o)).
Proof.
  intros H. apply (to_svg_loop_spec t gs None None rest Fresh H Logic.I eq_refl).
  - split; exists 0%Z; apply Qc_is_canon; cbn [this Q2Qc]; rewrite Qred_correct; reflexivity.
  - reflexivity.
Qed.

Lemma optimize_spec t l gs : from_svg t l = Some gs -> smooth_matches l -> arcs_ok l -> ends_apart t l -> writable t gs ->
  exists o, optimize t l = Some o /\ same_drawing (drawing l) (drawing (map snd o)).
Proof.
  intros E Hs Ha He Hw. unfold optimize. rewrite E.
  destruct (to_svg_spec t gs Hw) as (o & O & D). exists o. split; [exact O|].
  eapply drawing_trans; [|exact D].
  destruct l as [|[rel p| | | | | | | | |] l]; try discriminate E.
  - injection E as <-. apply drawing_refl.
  - apply (from_svg_spec t rel p l gs E Hs Ha). exact He.
Qed.

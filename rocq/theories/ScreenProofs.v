From Coq Require Import String List NArith ZArith Bool Arith Lia.
From Verif Require Import Chars ShellModel ExportModel ScreenModel ScreenSpec.
Import ListNotations.

Lemma square_off_eq : forall a b, Z.of_N (square_off a b) = ((Z.of_N b - Z.of_N a) ^ 2)%Z.
Proof. intros a b. unfold square_off. destruct (N.ltb_spec a b); rewrite Z.pow_2_r; nia. Qed.
Lemma square_off_refl : forall a, square_off a a = 0%N.
Proof. intros a. unfold square_off. rewrite N.ltb_irrefl, N.sub_diag. reflexivity. Qed.
Lemma square_off_sym : forall a b, square_off a b = square_off b a.
Proof. intros a b. unfold square_off. destruct (N.ltb_spec a b), (N.ltb_spec b a); try lia; nia. Qed.
Lemma far_apart : forall a b c d e f g h, far_off a b c d e f g h = true <-> apart (a, b, c, d) (e, f, g, h).
Proof.
  intros. unfold far_off, apart. rewrite N.ltb_lt. rewrite <- !square_off_eq. split; intros H; lia.
Qed.
Lemma far_same : forall a b c d, far_off a b c d a b c d = false.
Proof. intros. unfold far_off. rewrite !square_off_refl. reflexivity. Qed.

Lemma errors_cons : forall a0 a1 a2 a3 a b0 b1 b2 b3 b, errors (a0 :: a1 :: a2 :: a3 :: a) (b0 :: b1 :: b2 :: b3 :: b) =
  (if far_off a0 a1 a2 a3 b0 b1 b2 b3 then 1 else 0) + errors (a1 :: a2 :: a3 :: a) (b1 :: b2 :: b3 :: b).
Proof. reflexivity. Qed.
Lemma errors_short : forall a b, List.length a < 4 -> errors a b = 0.
Proof. intros [|x [|y [|z [|w a]]]] [|x' [|y' [|z' b]]] H; cbn [List.length] in H; try lia; try reflexivity. Qed.
Lemma errors_same : forall a, errors a a = 0.
Proof. induction a as [|x a IH]; [reflexivity|]. destruct a as [|y [|z [|w a]]]; try reflexivity. rewrite errors_cons, far_same, IH. reflexivity. Qed.
Lemma errors_sym : forall a b, errors a b = errors b a.
Proof.
  induction a as [|x a IH]; intros [|x' b]; try reflexivity. destruct a as [|y [|z [|w a]]], b as [|y' [|z' [|w' b]]]; try reflexivity.
  rewrite !errors_cons, IH. unfold far_off. now rewrite (square_off_sym x), (square_off_sym y), (square_off_sym z), (square_off_sym w).
Qed.
Lemma errors_skip : forall x y a b, errors a b <= errors (x :: a) (y :: b).
Proof.
  intros x y a b. destruct a as [|a1 [|a2 [|a3 a]]]; [rewrite errors_short by (cbn; lia); lia| | |]; try (rewrite errors_short by (cbn; lia); lia).
  destruct b as [|b1 [|b2 [|b3 b]]]; try (rewrite (errors_sym (a1 :: _)), errors_short by (cbn; lia); lia). rewrite errors_cons. lia.
Qed.

(** Every pixel that is far off is counted. *)
Lemma counted : forall n l r, places apart n l r -> n <= errors (bytes_of l) (bytes_of r).
Proof.
  assert (K : forall p q l r, errors (bytes_of l) (bytes_of r) + (match p, q with (a, b, c, d), (e, f, g, h) => if far_off a b c d e f g h then 1 else 0 end) <= errors (bytes_of (p :: l)) (bytes_of (q :: r))).
  { intros [[[a b] c] d] [[[e f] g] h] l r. cbn [bytes_of flat_map app]. fold (bytes_of l) (bytes_of r). rewrite errors_cons.
    pose proof (errors_skip d h (bytes_of l) (bytes_of r)). pose proof (errors_skip c g (d :: bytes_of l) (h :: bytes_of r)). pose proof (errors_skip b f (c :: d :: bytes_of l) (g :: h :: bytes_of r)). lia. }
  induction 1 as [|n p q l r A H IH|n p q l r A H IH]; [lia| |].
  - specialize (K p q l r). destruct p as [[[a b] c] d], q as [[[e f] g] h]. apply far_apart in A. cbv beta iota in K. rewrite A in K. cbv beta iota in K. refine (Nat.le_trans _ _ _ _ K). lia.
  - refine (Nat.le_trans _ _ _ _ (K p q l r)). lia.
Qed.
(** A window is at most in seven for each pixel that differs: [k] of the bytes at the front belong to a pixel before that differs. *)
Lemma windows_bound : forall n l r, places differ n l r -> errors (bytes_of l) (bytes_of r) + (match l, r with p :: _, q :: _ => 0 | _, _ => 0 end) <= 7 * n /\
  forall x y z x' y' z',
    errors (z :: bytes_of l) (z' :: bytes_of r) <= 7 * n + 1 /\
    errors (y :: z :: bytes_of l) (y' :: z' :: bytes_of r) <= 7 * n + 2 /\
    errors (x :: y :: z :: bytes_of l) (x' :: y' :: z' :: bytes_of r) <= 7 * n + 3 /\
    errors (z :: bytes_of l) (z :: bytes_of r) <= 7 * n /\
    errors (y :: z :: bytes_of l) (y :: z :: bytes_of r) <= 7 * n /\
    errors (x :: y :: z :: bytes_of l) (x :: y :: z :: bytes_of r) <= 7 * n.
Proof.
  induction 1 as [|n p q l r D H IH|n p q l r D H IH].
  - split; [cbn; lia|]. intros. cbn. lia.
  - destruct IH as [I J]. destruct p as [[[a b] c] d], q as [[[e f] g] h]. cbn [bytes_of flat_map app]. fold (bytes_of l) (bytes_of r).
    destruct (J b c d f g h) as (J1 & J2 & J3 & _).
    assert (F : forall a0 a1 a2 a3 b0 b1 b2 b3, (if far_off a0 a1 a2 a3 b0 b1 b2 b3 then 1 else 0) <= 1) by (intros; destruct (far_off _ _ _ _ _ _ _ _); lia).
    split.
    + rewrite errors_cons. specialize (F a b c d e f g h). lia.
    + intros. rewrite !errors_cons. pose proof (F a b c d e f g h). pose proof (F z a b c z' e f g). pose proof (F y z a b y' z' e f). pose proof (F x y z a x' y' z' e).
      pose proof (F z a b c z e f g). pose proof (F y z a b y z e f). pose proof (F x y z a x y z e). lia.
  - destruct IH as [I J]. assert (E : p = q). { destruct p as [[[a b] c] d], q as [[[e f] g] h]. destruct (N.eq_dec a e), (N.eq_dec b f), (N.eq_dec c g), (N.eq_dec d h); subst; auto; exfalso; apply D; intros K; injection K; congruence. }
    subst q. destruct p as [[[a b] c] d]. cbn [bytes_of flat_map app]. fold (bytes_of l) (bytes_of r). destruct (J b c d b c d) as (_ & _ & _ & J1 & J2 & J3).
    assert (F : forall a0 a1 a2 a3 b0 b1 b2 b3, (if far_off a0 a1 a2 a3 b0 b1 b2 b3 then 1 else 0) <= 1) by (intros; destruct (far_off _ _ _ _ _ _ _ _); lia).
    split; [rewrite errors_cons, far_same; lia|]. intros. rewrite !errors_cons, !far_same. pose proof (F z a b c z' a b c). pose proof (F y z a b y' z' a b). pose proof (F x y z a x' y' z' a). lia.
Qed.
Lemma bounded : forall n l r, places differ n l r -> errors (bytes_of l) (bytes_of r) <= 7 * n.
Proof. intros n l r H. destruct (windows_bound n l r H) as [I _]. lia. Qed.
Lemma places_length : forall P n l r, places P n l r -> List.length l = List.length r.
Proof. induction 1; cbn [List.length]; congruence. Qed.
Lemma bytes_length : forall l, List.length (bytes_of l) = List.length l * 4.
Proof. induction l as [|[[[a b] c] d] l IH]; [reflexivity|]. cbn [bytes_of flat_map app List.length]. fold (bytes_of l). rewrite IH. reflexivity. Qed.
Lemma compare_pixels : forall l r, List.length l = List.length r -> compare (bytes_of l) (bytes_of r) =
  if List.length l * 4 <? 50 * errors (bytes_of l) (bytes_of r) then Some (Broken (errors (bytes_of l) (bytes_of r)) (List.length l * 4)) else Some Ok.
Proof.
  intros l r L. unfold compare. rewrite !bytes_length, L, Nat.eqb_refl, Nat.mod_mul by discriminate. reflexivity.
Qed.

Lemma compare_same : forall l, compare (bytes_of l) (bytes_of l) = Some Ok.
Proof. intros l. rewrite compare_pixels by reflexivity. rewrite errors_same. reflexivity. Qed.
Lemma compare_sym : forall a b, compare a b = compare b a.
Proof.
  intros a b. unfold compare. rewrite (errors_sym a b), (Nat.eqb_sym (List.length a)). destruct (List.length b =? List.length a) eqn:E; [|reflexivity]. apply Nat.eqb_eq in E. rewrite E. reflexivity.
Qed.
Lemma compare_alarm : forall l r e m k, compare (bytes_of l) (bytes_of r) = Some (Broken e m) -> places differ k l r -> 2 * (4 * List.length l) < 100 * (7 * k).
Proof.
  intros l r e m k H P. rewrite compare_pixels in H by (apply (places_length _ _ _ _ P)). destruct (Nat.ltb_spec (List.length l * 4) (50 * errors (bytes_of l) (bytes_of r))) as [L|]; [|discriminate].
  apply bounded in P. lia.
Qed.
Lemma compare_missed : forall l r k, compare (bytes_of l) (bytes_of r) = Some Ok -> places apart k l r -> 100 * k <= 8 * List.length l.
Proof.
  intros l r k H P. rewrite compare_pixels in H by (apply (places_length _ _ _ _ P)). destruct (Nat.ltb_spec (List.length l * 4) (50 * errors (bytes_of l) (bytes_of r))) as [|L]; [discriminate|].
  apply counted in P. lia.
Qed.

(** ** Pictures of blocks *)
Fixpoint blocks (n : nat) (b : list pixel) : list pixel := match n with 0 => [] | S n => b ++ blocks n b end.
Definition white_pixel : pixel := (0, 0, 0, 0)%N.
(** One pixel of 64, in the middle. *)
Definition block64 (p : pixel) : list pixel := repeat white_pixel 32 ++ p :: repeat white_pixel 31.
Definition block32 (p : pixel) : list pixel := repeat white_pixel 16 ++ p :: repeat white_pixel 15.
Definition starts (l r : list pixel) : Prop := (l = [] /\ r = []) \/ exists l' r', l = white_pixel :: l' /\ r = white_pixel :: r'.
Lemma starts_blocks : forall b n p q, b = block64 \/ b = block32 -> starts (blocks n (b p)) (blocks n (b q)).
Proof. intros b [|n] p q [-> | ->]; [left; split; reflexivity|left; split; reflexivity|right|right]; eexists _, _; split; reflexivity. Qed.
Lemma errors64 : forall l r, starts l r -> errors (bytes_of (block64 (255, 255, 255, 255)%N ++ l)) (bytes_of (block64 white_pixel ++ r)) = 7 + errors (bytes_of l) (bytes_of r).
Proof. intros l r [[-> ->]|(l' & r' & -> & ->)]; [reflexivity|]. reflexivity. Qed.
Lemma errors32 : forall l r, starts l r -> errors (bytes_of (block32 (26, 26, 26, 26)%N ++ l)) (bytes_of (block32 white_pixel ++ r)) = 1 + errors (bytes_of l) (bytes_of r).
Proof. intros l r [[-> ->]|(l' & r' & -> & ->)]; [reflexivity|]. reflexivity. Qed.
Lemma places_app : forall P n m a b c d, places P n a b -> places P m c d -> places P (n + m) (a ++ c) (b ++ d).
Proof. intros P n m a b c d H K. induction H; cbn [app Nat.add]; [exact K|constructor; assumption|constructor; assumption]. Qed.
Lemma places_same : forall P n, ~ P white_pixel white_pixel -> places P 0 (repeat white_pixel n) (repeat white_pixel n).
Proof. intros P n H. induction n; [constructor|]. cbn [repeat]. apply places_no; assumption. Qed.
Lemma places64 : forall P p, ~ P white_pixel white_pixel -> P p white_pixel -> places P 1 (block64 p) (block64 white_pixel).
Proof. intros P p N Y. apply (places_app P 0 1); [apply places_same; exact N|]. apply places_yes; [exact Y|apply places_same; exact N]. Qed.
Lemma places32 : forall P p, ~ P white_pixel white_pixel -> P p white_pixel -> places P 1 (block32 p) (block32 white_pixel).
Proof. intros P p N Y. apply (places_app P 0 1); [apply places_same; exact N|]. apply places_yes; [exact Y|apply places_same; exact N]. Qed.
Lemma blocks_length : forall n b, List.length (blocks n b) = n * List.length b.
Proof. induction n as [|n IH]; intros b; cbn [blocks Nat.mul]; [reflexivity|]. rewrite app_length, IH. reflexivity. Qed.
Lemma alarm_blocks : forall n, 0 < n -> places differ n (blocks n (block64 (255, 255, 255, 255)%N)) (blocks n (block64 white_pixel)) /\
  compare (bytes_of (blocks n (block64 (255, 255, 255, 255)%N))) (bytes_of (blocks n (block64 white_pixel))) = Some (Broken (7 * n) (256 * n)).
Proof.
  intros n Z. split.
  - clear Z. induction n as [|n IH]; [constructor|]. cbn [blocks]. apply (places_app differ 1 n); [apply places64; [intros H; apply H; reflexivity|discriminate]|exact IH].
  - assert (E : forall n, errors (bytes_of (blocks n (block64 (255, 255, 255, 255)%N))) (bytes_of (blocks n (block64 white_pixel))) = 7 * n).
    { clear. induction n as [|n IH]; [reflexivity|]. cbn [blocks]. rewrite errors64 by (apply starts_blocks; left; reflexivity). rewrite IH. lia. }
    rewrite compare_pixels by (rewrite !blocks_length; reflexivity). rewrite E, blocks_length. change (List.length (block64 (255, 255, 255, 255)%N)) with 64.
    destruct (Nat.ltb_spec (n * 64 * 4) (50 * (7 * n))); [|lia]. do 2 f_equal. lia.
Qed.
Lemma missed_blocks : forall n, places apart n (blocks n (block32 (26, 26, 26, 26)%N)) (blocks n (block32 white_pixel)) /\
  compare (bytes_of (blocks n (block32 (26, 26, 26, 26)%N))) (bytes_of (blocks n (block32 white_pixel))) = Some Ok.
Proof.
  intros n. split.
  - induction n as [|n IH]; [constructor|]. cbn [blocks]. apply (places_app apart 1 n); [apply places32; [vm_compute; discriminate|vm_compute; reflexivity]|exact IH].
  - assert (E : forall n, errors (bytes_of (blocks n (block32 (26, 26, 26, 26)%N))) (bytes_of (blocks n (block32 white_pixel))) = n).
    { clear. induction n as [|n IH]; [reflexivity|]. cbn [blocks]. rewrite errors32 by (apply starts_blocks; right; reflexivity). rewrite IH. lia. }
    rewrite compare_pixels by (rewrite !blocks_length; reflexivity). rewrite E, blocks_length. change (List.length (block32 (26, 26, 26, 26)%N)) with 32.
    destruct (Nat.ltb_spec (n * 32 * 4) (50 * n)); [lia|reflexivity].
Qed.

(** ** The command *)
Lemma regress_spec : forall draw source output n m, regress draw source output = Some [Regressed n m] <->
  exists optimised a b, output = Some (Some optimised) /\ draw source = Some a /\ draw optimised = Some b /\ compare a b = Some (Broken n m).
Proof.
  intros draw source output n m. unfold regress, check. split.
  - destruct output as [[o|]|]; try discriminate. destruct (draw source) as [a|] eqn:A; [|discriminate]. destruct (draw o) as [b|] eqn:B; [|discriminate].
    destruct (compare a b) as [[e k|]|] eqn:C; cbn [option_map]; try discriminate. intros H. injection H as -> ->. exists o, a, b. auto.
  - intros (o & a & b & -> & -> & -> & C). rewrite C. reflexivity.
Qed.
Lemma render_spec : forall draw denied source input output, match render draw denied source input output with
  | (Some (p, d), failed) => failed = false /\ draw source = Some d /\ exists q, (output = Some q \/ (output = None /\ input = Some q)) /\ p = set_extension q (lit "png")
  | (None, failed) => failed = true
  end.
Proof.
  intros draw denied source input output. unfold render. destruct output as [p|].
  - destruct (draw source) as [d|]; [|reflexivity]. destruct (denied _); [reflexivity|]. split; [reflexivity|]. split; [reflexivity|]. exists p. auto.
  - destruct input as [p|]; [|reflexivity]. destruct (draw source) as [d|]; [|reflexivity]. destruct (denied _); [reflexivity|]. split; [reflexivity|]. split; [reflexivity|]. exists p. auto.
Qed.
Lemma not_png : forall l, Forall premultiplied l -> ~ is_png (bytes_of l).
Proof.
  intros l F (r & E). destruct F as [|[[[a b] c] d] l P F]; [discriminate|]. cbn [bytes_of flat_map app signature] in E. injection E as -> -> -> -> _. unfold premultiplied in P. lia.
Qed.

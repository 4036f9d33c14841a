(** Moves on a line whose lower end reflects and whose upper end absorbs, as in the spherical example: C66. *)
From Coq Require Import String.
From stdpp Require Import numbers list.
From Verif Require Import Vec VecProofs Rounding BcModel TrackModel TrackGeomProofs Geometry Conforming MeshModel MeshProps LineMeshModel LineMeshProps.
Local Open Scope R_scope.

Section Reflect.
Context {K : Type} (bcs : Z -> option (bcfun (K:=K))) (recd : tctx (K:=K) -> Z -> particle -> R -> res (tctx (K:=K)))
        (vs : list R) (mk : Z -> Z) (m : mesh) (maxc fi : Z).
Let n : Z := Z.of_nat (pred (length vs)).
Context (HI : Increasing vs) (Hm : interval_mesh vs mk = Ok m)
        (Hlen : (2 <= length vs)%nat)
        (Hin : forall f, (0 < f < n)%Z -> mk f = 0%Z)
        (Hleft : mk 0%Z <> 0%Z /\ bcs (mk 0%Z) = Some (reflect_bc exact))
        (Hrec : forall c i p t, exists c', recd c i p t = Ok c' /\ scr c' = scr c).

(** One crossing to the left, not at the end. *)
Lemma step_left_in fuel ci cr ml cnt tS dtR p c x y x0 : LineCell vs ci cr -> px p = [x] -> px0 p = [y] -> vs !! Z.to_nat ci = Some x0 ->
  Holds vs ci y -> x < x0 -> (ml = NO_FACET \/ ci < ml)%Z -> (cnt + 1 <= maxc)%Z -> (0 < ci)%Z ->
  exists tS' dtR' c', track_loop exact bcs recd (S fuel) Charged m maxc fi ci ml cnt tS dtR p c =
    track_loop exact bcs recd fuel Charged m maxc fi (ci - 1) ci (cnt + 1) tS' dtR' (set_pcell (set_px0 p [x0]) (ci - 1)%Z) c'.
Proof.
  intros Hcr Hx Hx0 E1 (x0' & x1 & _ & E1' & E2 & Hb) Hlt Hml Hcnt Hci. rewrite E1 in E1'. injection E1' as <-.
  destruct (interval_mesh_ok vs mk HI) as (m' & E' & Hd & Hmk & Hins & Hcells). rewrite Hm in E'. injection E' as <-.
  destruct (interval_inside_spec vs ci cr x Hcr) as (y0 & y1 & F1 & F2 & Hi). rewrite E1 in F1. rewrite E2 in F2. injection F1 as <-. injection F2 as <-.
  cbn [track_loop]. rewrite (proj2 (Hcells ci cr) Hcr). rewrite Hd, Hx, Hins. cbn [take].
  destruct (interval_inside vs ci [x]); [assert (x0 <= x <= x1) by (by apply Hi); lra|]. clear Hi.
  replace (maxc <? cnt + 1)%Z with false by lia. rewrite Hx0. cbn [vsub zip_with]. change (exact (x - y)) with (x - y).
  destruct Hcr as (a0 & a1 & Hc & G1 & G2 & Hlt' & ->). rewrite E1 in G1. rewrite E2 in G2. injection G1 as <-. injection G2 as <-.
  rewrite (find_facet_left x0 x1 _ _ y x Hb Hlt). cbn iota beta. change (0 =? NO_FACET)%Z with false.
  cbn [fids nbrs]. change (py_get [ci; (ci + 1)%Z] 0) with (Ok ci). cbn iota beta.
  replace (ci =? ml)%Z with false by (unfold NO_FACET in Hml; lia).
  assert (Hv : vadd exact [y] (vscale exact ((y - x0) / (y - x)) [x - y]) = [x0]) by (cbn; unfold exact; f_equal; field; lra).
  rewrite Hv. set (c1 := put_move Charged c [x - y]). set (tS1 := exact (tS + _)). set (dtR1 := dt_after exact Charged _ dtR).
  unfold on_marker. rewrite Hmk. unfold line_row. rewrite Hin by (subst n; lia). cbn [Z.eqb]. exists tS1, dtR1, c1.
  replace (ci =? 0)%Z with false by lia.
  change (py_get [(ci - 1)%Z; _] 0) with (Ok (ci - 1)%Z). cbn iota beta. unfold NO_CELL at 1. replace (ci - 1 =? -1)%Z with false by lia. reflexivity.
Qed.

(** The crossing at the lower end. *)
Lemma step_reflect fuel cr ml cnt tS dtR p c x y u a : LineCell vs 0 cr -> px p = [x] -> px0 p = [y] -> pu p = [u] -> vs !! 0%nat = Some a ->
  Holds vs 0 y -> x < a -> (ml = NO_FACET \/ 0 < ml)%Z -> (cnt + 1 <= maxc)%Z -> is_deleted p = false ->
  exists tS' dtR' c', track_loop exact bcs recd (S fuel) Charged m maxc fi 0 ml cnt tS dtR p c =
    track_loop exact bcs recd fuel Charged m maxc fi 0 0 (cnt + 1) tS' dtR' (set_pu (set_px (set_px0 p [a]) [2 * a - x]) [- u]) c'.
Proof.
  intros Hcr Hx Hx0 Hu E1 (x0' & x1 & _ & E1' & E2 & Hb) Hlt Hml Hcnt Hdel. change (Z.to_nat 0) with 0%nat in *. rewrite E1 in E1'. injection E1' as <-.
  destruct (interval_mesh_ok vs mk HI) as (m' & E' & Hd & Hmk & Hins & Hcells). rewrite Hm in E'. injection E' as <-.
  destruct (interval_inside_spec vs 0 cr x Hcr) as (y0 & y1 & F1 & F2 & Hi). change (Z.to_nat 0) with 0%nat in *. rewrite E1 in F1. rewrite E2 in F2. injection F1 as <-. injection F2 as <-.
  cbn [track_loop]. rewrite (proj2 (Hcells 0%Z cr) Hcr). rewrite Hd, Hx, Hins. cbn [take].
  destruct (interval_inside vs 0 [x]); [assert (a <= x <= x1) by (by apply Hi); lra|]. clear Hi.
  replace (maxc <? cnt + 1)%Z with false by lia. rewrite Hx0. cbn [vsub zip_with]. change (exact (x - y)) with (x - y).
  destruct Hcr as (a0 & a1 & Hc & G1 & G2 & Hlt' & ->). change (Z.to_nat 0) with 0%nat in *. rewrite E1 in G1. rewrite E2 in G2. injection G1 as <-. injection G2 as <-.
  rewrite (find_facet_left a x1 _ _ y x Hb Hlt). cbn iota beta. change (0 =? NO_FACET)%Z with false.
  cbn [fids nbrs]. change (py_get [0%Z; (0 + 1)%Z] 0) with (Ok 0%Z). cbn iota beta.
  replace (0 =? ml)%Z with false by (unfold NO_FACET in Hml; lia).
  assert (Hv : vadd exact [y] (vscale exact ((y - a) / (y - x)) [x - y]) = [a]) by (cbn; unfold exact; f_equal; field; lra).
  rewrite Hv. set (c1 := put_move Charged c [x - y]). set (tS1 := exact (tS + _)). set (dtR1 := dt_after exact Charged _ dtR).
  unfold on_marker. rewrite Hmk. unfold line_row. destruct Hleft as [Hz Hbc]. replace (mk 0 =? 0)%Z with false by lia.
  assert (exists c2, (if is_traj (set_px0 p [a]) then recd c1 fi (set_px0 p [a]) tS1 else Ok c1) = Ok c2 /\ scr c2 = [x - y]) as (c2 & -> & Hs).
  { destruct (is_traj _).
    - destruct (Hrec c1 fi (set_px0 p [a]) tS1) as (c2 & E & Hs). exists c2. split; [exact E|]. rewrite Hs. reflexivity.
    - exists c1. split; reflexivity. }
  exists tS1, dtR1, c2. cbn iota beta. rewrite Hbc. unfold reflect_bc. rewrite Hs. change (pu (set_px0 p [a])) with (pu p). rewrite Hu. cbn [length Nat.eqb negb orb]. cbn iota beta.
  change (0 =? 0)%Z with true. cbn iota. change (py_get [(-1)%Z; _] 0) with (Ok (-1)%Z). cbn iota beta.
  match goal with |- context [reflect_from_surface ?f ?nn ?o ?q] => assert (Hr : reflect_from_surface f nn o q = set_pu (set_px (set_px0 p [a]) [2 * a - x]) [- u]) end.
  { unfold reflect_from_surface. change (pu (set_px0 p [a])) with (pu p). change (px (set_px0 p [a])) with (px p). rewrite Hu, Hx.
    cbn [vscale vdot vsub zip_with map foldr fold_right fold_left]. unfold exact. cbn [fst snd].
    match goal with |- set_pu (set_px _ [?e1]) [?e2] = _ => replace e1 with (2 * a - x) by (field; lra); replace e2 with (- u) by ring end. reflexivity. }
  rewrite Hr. change (-1 =? NO_CELL)%Z with true. cbn iota. change (is_deleted (set_pu _ _)) with (is_deleted p). rewrite Hdel. reflexivity.
Qed.

Context (Hright : mk n <> 0%Z /\ bcs (mk n) = Some absorb_bc).

Lemma rec_ok : forall c i p t, exists c', recd c i p t = Ok c'.
Proof. intros c i p t. destruct (Hrec c i p t) as (c' & E & _). by exists c'. Qed.

(** A move to the left: it ends inside, or it turns at the lower end and goes on as a move to the right. *)
Lemma go_left_reflect j : forall fuel ci ml cnt tS dtR p c x y u a, Z.to_nat ci = j -> (0 <= ci < n)%Z -> px p = [x] -> px0 p = [y] -> pu p = [u] ->
  pcell p = ci -> Holds vs ci y -> x <= y -> (ml = NO_FACET \/ ci < ml)%Z -> (cnt + (ci + 1) + n <= maxc)%Z -> (S j + S (Z.to_nat n) < fuel)%nat ->
  is_deleted p = false -> vs !! 0%nat = Some a ->
  exists q cnt' c', track_loop exact bcs recd fuel Charged m maxc fi ci ml cnt tS dtR p c = Ok (q, cnt', c') /\ pw q = pw p /\ puid q = puid p /\
    (a <= x /\ px q = [x] /\ pu q = [u] /\ pbits q = pbits p /\ Holds vs (pcell q) x /\ (cnt' - cnt = ci - pcell q /\ 0 <= ci - pcell q)%Z \/
     x < a /\ px q = [2 * a - x] /\ pu q = [- u] /\
       (pbits q = pbits p /\ Holds vs (pcell q) (2 * a - x) /\ (cnt' - cnt = ci + 1 + pcell q)%Z \/
        pbits q = Z.lor (pbits p) DELETE_FLAG /\ pcell q = NO_CELL /\ (cnt' - cnt = ci + 1 + n)%Z /\ exists b, list.last vs = Some b /\ b < 2 * a - x)).
Proof.
  induction j as [|j IH]; intros fuel ci ml cnt tS dtR p c x y u a Hj Hci Hx Hx0 Hu Hpc Hy Hle Hml Hcnt Hfuel Hdel Ha.
  all: destruct fuel as [|fuel]; [lia|].
  all: destruct (line_cell_at vs HI ci x Hci) as (cr & x0 & x1 & Hcr & E1 & E2 & Hh).
  all: destruct (Rle_lt_dec x0 x) as [Hx1|Hx1];
    [assert (HH : Holds vs ci x) by (apply Hh; destruct Hy as (y0 & y1 & _ & F1 & F2 & ?); rewrite E2 in F2; injection F2 as <-; lra);
     rewrite (step_inside bcs recd Charged vs mk m maxc fi HI Hm fuel ci cr ml cnt tS dtR p c x Hcr Hx HH); exists p, cnt, c; split; [reflexivity|]; split; [done|]; split; [done|]; left; rewrite Hpc;
     split; [|split; [done|split; [done|split; [done|split; [assumption|lia]]]]]|].
  - replace (Z.to_nat ci) with 0%nat in E1 by lia. rewrite Ha in E1. injection E1 as <-. exact Hx1.
  - assert (ci = 0%Z) as -> by lia. change (Z.to_nat 0) with 0%nat in *. rewrite Ha in E1. injection E1 as <-.
    destruct (step_reflect fuel cr ml cnt tS dtR p c x y u a Hcr Hx Hx0 Hu Ha Hy Hx1 Hml ltac:(lia) Hdel) as (tS' & dtR' & c' & ->).
    set (p2 := set_pu (set_px (set_px0 p [a]) [2 * a - x]) [- u]).
    assert (Hya : Holds vs 0 a).
    { destruct Hcr as (w0 & w1 & _ & G1 & G2 & G3 & _). exists w0, w1. split; [lia|]. split; [exact G1|]. split; [exact G2|].
      change (Z.to_nat 0) with 0%nat in G1. rewrite Ha in G1. injection G1 as <-. lra. }
    destruct (go_right bcs recd Charged vs mk m maxc fi HI Hm Hlen Hin Hright rec_ok (pred (Z.to_nat n)) fuel 0%Z 0%Z (cnt + 1)%Z tS' dtR' p2 c' (2 * a - x) a)
      as (q & cnt' & c'' & -> & (S1 & S2 & S3 & S4) & Hq); try reflexivity; try assumption; try lra; try (subst n; lia).
    exists q, cnt', c''. split; [reflexivity|]. split; [exact S3|]. split; [exact S4|]. right. split; [exact Hx1|]. split; [exact S1|]. split; [exact S2|].
    destruct Hq as [(H1 & H2 & H3)|(H1 & H2 & H3 & H4)]; [left|right].
    + split; [exact H1|]. split; [exact H2|]. lia.
    + split; [exact H1|]. split; [exact H2|]. split; [subst n; lia|exact H4].
  - destruct (list.last vs) as [b|] eqn:Hl; [|apply last_None in Hl; subst vs; cbn in Hlen; lia].
    assert (HH' : Holds vs ci x0) by (apply (line_cell_at vs HI ci x0) in Hci as (? & z0 & z1 & (w0 & w1 & _ & G1 & G2 & G3 & _) & F1 & F2 & Hh'); apply Hh'; rewrite F1 in G1; rewrite F2 in G2; injection G1 as <-; injection G2 as <-; rewrite E1 in F1; injection F1 as <-; lra).
    pose proof (holds_between vs ci x0 a b HI HH' (eq_trans (head_lookup vs) Ha) Hl). lra.
  - destruct (step_left_in fuel ci cr ml cnt tS dtR p c x y x0 Hcr Hx Hx0 E1 Hy Hx1 Hml ltac:(lia) ltac:(lia)) as (tS' & dtR' & c' & ->).
    destruct (IH fuel (ci - 1)%Z ci (cnt + 1)%Z tS' dtR' (set_pcell (set_px0 p [x0]) (ci - 1)%Z) c' x x0 u a) as (q & cnt' & c'' & -> & HS1 & HS2 & Hq); try done; try lia.
    + destruct (line_cell_at vs HI (ci - 1)%Z x0) as (cr' & z0 & z1 & (w0 & w1 & _ & G1 & G2 & G3 & _) & F1 & F2 & Hh'); [subst n; lia|]. apply Hh'.
      rewrite F1 in G1. rewrite F2 in G2. injection G1 as <-. injection G2 as <-.
      replace (S (Z.to_nat (ci - 1))) with (Z.to_nat ci) in F2 by lia. rewrite E1 in F2. injection F2 as <-. lra.
    + lra.
    + exists q, cnt', c''. split; [reflexivity|]. split; [exact HS1|]. split; [exact HS2|].
      destruct Hq as [(H0 & H1 & H2 & H3 & H4 & H5)|(H0 & H1 & H2 & [(H3 & H4 & H5)|(H3 & H4 & H5 & H6)])]; [left|right|right].
      * split; [exact H0|]. split; [exact H1|]. split; [exact H2|]. split; [exact H3|]. split; [exact H4|]. lia.
      * split; [exact H0|]. split; [exact H1|]. split; [exact H2|]. left. split; [exact H3|]. split; [exact H4|]. lia.
      * split; [exact H0|]. split; [exact H1|]. split; [exact H2|]. right. split; [exact H3|]. split; [exact H4|]. split; [lia|exact H6].
Qed.
End Reflect.

(** C66: on an interval mesh from [a] to [b] with [n] cells whose lower end reflects and whose upper end absorbs, tracking of the charged mover
    never fails if at least twice as many crossings are allowed as there are cells.  A move to [x >= a] ends there; a move to [x < a] ends in the mirror image [2a - x],
    with the velocity reversed; in both cases the particle is put in a cell that contains its end point, or deleted if that is beyond [b]. *)
Theorem C66_tracking {K} (bcs : Z -> option (bcfun (K:=K))) recd vs mk m maxc fi time dt p c x y u a b :
  let n := Z.of_nat (pred (length vs)) in
  let x' := if Rltb x a then 2 * a - x else x in
  Increasing vs -> interval_mesh vs mk = Ok m -> head vs = Some a -> list.last vs = Some b ->
  (forall f, (0 < f < n)%Z -> mk f = 0%Z) ->
  mk 0%Z <> 0%Z -> bcs (mk 0%Z) = Some (reflect_bc exact) -> mk n <> 0%Z -> bcs (mk n) = Some absorb_bc ->
  (forall c i p t, exists c', recd c i p t = Ok c' /\ scr c' = scr c) ->
  px p = [x] -> px0 p = [y] -> pu p = [u] -> Holds vs (pcell p) y -> is_deleted p = false -> (2 * n <= maxc)%Z ->
  exists q c', track exact bcs recd Charged m maxc fi time dt p c = Ok (q, c') /\
    px q = [x'] /\ pu q = [if Rltb x a then - u else u] /\ pw q = pw p /\ puid q = puid p /\
    (x' <= b -> pbits q = pbits p /\ Holds vs (pcell q) x' /\
       pcross q = if Rltb x a then (pcell p + 1 + pcell q)%Z else Z.abs (pcell q - pcell p)) /\
    (b < x' -> pbits q = Z.lor (pbits p) DELETE_FLAG /\ pcell q = NO_CELL /\
       pcross q = if Rltb x a then (pcell p + 1 + n)%Z else (n - pcell p)%Z).
Proof.
  intros n x' HI Hm Ha Hb Hin Hz0 Hbc0 Hzn Hbcn Hrec Hx Hx0 Hu Hy Hdel Hmax.
  assert (Hr : (0 <= pcell p < n)%Z).
  { destruct Hy as (x0 & x1 & H0 & _ & E2 & _). apply lookup_lt_Some in E2. subst n. lia. }
  assert (Hlen : (2 <= length vs)%nat) by (subst n; lia).
  pose proof (holds_between vs (pcell p) y a b HI Hy Ha Hb) as Hyab.
  assert (Hrec' : forall c i p t, exists c', recd c i p t = Ok c') by (intros c0 i p0 t; destruct (Hrec c0 i p0 t) as (c' & E & _); by exists c').
  unfold track. destruct (Rle_lt_dec y x) as [Hyx|Hxy].
  - assert (Hf : Rltb x a = false) by (apply Rltb_false; lra). unfold x'. rewrite !Hf. clear x'.
    destruct (go_right bcs recd Charged vs mk m maxc fi HI Hm Hlen Hin (conj Hzn Hbcn) Hrec' (pred (Z.to_nat (n - pcell p))) (track_fuel maxc) (pcell p) NO_FACET 0%Z (exact (time - dt)) dt p c x y)
      as (q & cnt & c' & -> & (S1 & S2 & S3 & S4) & Hq); try assumption; try reflexivity; try (unfold NO_FACET, track_fuel; subst n; lia).
    eexists _, c'. split; [reflexivity|]. cbn. split; [by rewrite S1|]. split; [by rewrite S2|]. split; [exact S3|]. split; [exact S4|].
    destruct Hq as [(H1 & H2 & H3)|(H1 & H2 & H3 & b' & Hb' & Hlt)].
    + pose proof (holds_between vs (pcell q) x a b HI H2 Ha Hb). split; [|intros; lra]. intros _. split; [exact H1|]. split; [exact H2|]. lia.
    + rewrite Hb in Hb'. injection Hb' as <-. split; [intros; lra|]. intros _. split; [exact H1|]. split; [exact H2|]. fold n in H3. lia.
  - assert (Ha' : vs !! 0%nat = Some a) by (rewrite <- head_lookup; exact Ha).
    destruct (go_left_reflect bcs recd vs mk m maxc fi HI Hm Hlen Hin (conj Hz0 Hbc0) Hrec (conj Hzn Hbcn) (Z.to_nat (pcell p)) (track_fuel maxc) (pcell p) NO_FACET 0%Z (exact (time - dt)) dt p c x y u a)
      as (q & cnt & c' & -> & S3 & S4 & Hq); try assumption; try reflexivity; try lra; try (unfold NO_FACET, track_fuel; subst n; lia).
    eexists _, c'. split; [reflexivity|]. cbn.
    destruct Hq as [(H0 & H1 & H2 & H3 & H4 & H5)|(H0 & H1 & H2 & Hq)].
    + assert (Hf : Rltb x a = false) by (apply Rltb_false; lra). unfold x'. rewrite !Hf. split; [exact H1|]. split; [exact H2|]. split; [exact S3|]. split; [exact S4|].
      pose proof (holds_between vs (pcell q) x a b HI H4 Ha Hb). split; [|intros; lra]. intros _. split; [exact H3|]. split; [exact H4|]. lia.
    + assert (Hf : Rltb x a = true) by (apply Rltb_true; lra). unfold x'. rewrite !Hf. split; [exact H1|]. split; [exact H2|]. split; [exact S3|]. split; [exact S4|].
      destruct Hq as [(H3 & H4 & H5)|(H3 & H4 & H5 & b' & Hb' & Hlt)].
      * pose proof (holds_between vs (pcell q) _ a b HI H4 Ha Hb). split; [|intros; lra]. intros _. split; [exact H3|]. split; [exact H4|]. lia.
      * rewrite Hb in Hb'. injection Hb' as <-. split; [intros; lra|]. intros _. split; [exact H3|]. split; [exact H4|]. fold n in H5. lia.
Qed.

(** [k] steps of the charged mover for a particle on which no field acts. *)
Fixpoint flight {K} (bcs : Z -> option (bcfun (K:=K))) recd (m : mesh) (maxc fi : Z) (dt qmdt : R) (time : nat -> R) (k : nat)
    (p : particle) (c : tctx (K:=K)) : res (particle * tctx (K:=K)) :=
  match k with
  | O => Ok (p, c)
  | S k' => match flight bcs recd m maxc fi dt qmdt time k' p c with
            | Ok (q, c') => advance_charged exact bcs recd false m maxc fi (time k') dt qmdt None q c'
            | Raise e => Raise e
            end
  end.

(** C66: a free particle on such a mesh that starts at [y] with velocity [u] is, after [k] steps, at the distance [|y - a + k u dt|] from the reflecting end,
    with speed [|u|] and in a cell that contains it; it turns once at most; it is deleted in the first step that takes it beyond [b]. *)
Theorem C66_flight {K} (bcs : Z -> option (bcfun (K:=K))) recd vs mk m maxc fi dt qmdt time p c y u a b :
  let n := Z.of_nat (pred (length vs)) in
  let s (k : nat) := y - a + INR k * (u * dt) in
  Increasing vs -> interval_mesh vs mk = Ok m -> head vs = Some a -> list.last vs = Some b ->
  (forall f, (0 < f < n)%Z -> mk f = 0%Z) ->
  mk 0%Z <> 0%Z -> bcs (mk 0%Z) = Some (reflect_bc exact) -> mk n <> 0%Z -> bcs (mk n) = Some absorb_bc ->
  (forall c i p t, exists c', recd c i p t = Ok c' /\ scr c' = scr c) ->
  px p = [y] -> pu p = [u] -> Holds vs (pcell p) y -> is_deleted p = false -> (2 * n <= maxc)%Z ->
  forall k, (forall i, (i < k)%nat -> a + Rabs (s i) <= b) ->
  exists q c', flight bcs recd m maxc fi dt qmdt time k p c = Ok (q, c') /\
    px q = [a + Rabs (s k)] /\ pu q = [if Rltb (s k) 0 then - u else u] /\ pw q = pw p /\ puid q = puid p /\
    (a + Rabs (s k) <= b -> pbits q = pbits p /\ Holds vs (pcell q) (a + Rabs (s k))) /\
    (b < a + Rabs (s k) -> pbits q = Z.lor (pbits p) DELETE_FLAG /\ pcell q = NO_CELL).
Proof.
  intros n s HI Hm Ha Hb Hin Hz0 Hbc0 Hzn Hbcn Hrec Hx Hu Hy Hdel Hmax.
  pose proof (holds_between vs (pcell p) y a b HI Hy Ha Hb) as Hyab.
  assert (Hs0 : s 0%nat = y - a) by (unfold s; cbn; ring).
  assert (HsS : forall k, s (S k) = s k + u * dt) by (intros k; unfold s; rewrite S_INR; ring).
  assert (Hneg : forall k, s k < 0 -> u * dt < 0).
  { intros k Hk. unfold s in Hk. destruct (Rlt_le_dec (u * dt) 0) as [H|H]; [exact H|]. pose proof (pos_INR k). assert (0 <= INR k * (u * dt)) by (apply Rmult_le_pos; assumption). lra. }
  clearbody s. induction k as [|k IH]; intros Hbelow.
  - exists p, c. cbn [flight]. rewrite Hs0. rewrite Rabs_pos_eq by lra. replace (a + (y - a)) with y by ring. rewrite (proj2 (Rltb_false _ _)) by lra.
    split; [reflexivity|]. split; [exact Hx|]. split; [exact Hu|]. split; [reflexivity|]. split; [reflexivity|]. split; [intros _; by split|lra].
  - destruct IH as (q & c' & E & Q1 & Q2 & Q3 & Q4 & Q5 & _). { intros i Hi. apply Hbelow. lia. }
    destruct (Q5 (Hbelow k ltac:(lia))) as [Q6 Q7]. clear Q5. cbn [flight]. rewrite E. unfold advance_charged. cbn [accelerate].
    set (v := if Rltb (s k) 0 then - u else u) in *.
    set (x := a + Rabs (s k) + v * dt).
    assert (P1 : px (free_move exact dt q) = [x]). { unfold free_move. cbn [px set_px]. rewrite Q1, Q2. reflexivity. }
    assert (P2 : px0 (free_move exact dt q) = [a + Rabs (s k)]) by (rewrite <- Q1; reflexivity).
    assert (P3 : pu (free_move exact dt q) = [v]) by (rewrite <- Q2; reflexivity).
    assert (P4 : is_deleted (free_move exact dt q) = false).
    { change (is_deleted (free_move exact dt q)) with (is_deleted q). unfold is_deleted in *. rewrite Q6. exact Hdel. }
    destruct (C66_tracking bcs recd vs mk m maxc fi (time k) dt (free_move exact dt q) c' x _ v a b HI Hm Ha Hb Hin Hz0 Hbc0 Hzn Hbcn Hrec P1 P2 P3 Q7 P4 Hmax)
      as (r & c'' & Et & R1 & R2 & R3 & R4 & R5 & R6).
    assert (Hx' : (if Rltb x a then 2 * a - x else x) = a + Rabs (s (S k)) /\ (if Rltb x a then - v else v) = if Rltb (s (S k)) 0 then - u else u).
    { subst x v. destruct (Rlt_le_dec (s k) 0) as [Hk|Hk].
      - rewrite (proj2 (Rltb_true (s k) 0)) by lra. rewrite (Rabs_left (s k)) by lra. pose proof (Hneg k Hk). rewrite (proj2 (Rltb_false _ _)) by lra.
        rewrite HsS. rewrite (proj2 (Rltb_true _ _)) by lra. rewrite Rabs_left by lra. split; [ring|reflexivity].
      - rewrite (proj2 (Rltb_false (s k) 0)) by lra. rewrite (Rabs_pos_eq (s k)) by lra. rewrite HsS. destruct (Rlt_le_dec (s k + u * dt) 0) as [Hk'|Hk'].
        + rewrite (proj2 (Rltb_true _ _)) by lra. rewrite (proj2 (Rltb_true _ _)) by lra. rewrite Rabs_left by lra. split; [ring|reflexivity].
        + rewrite (proj2 (Rltb_false _ _)) by lra. rewrite (proj2 (Rltb_false _ _)) by lra. rewrite Rabs_pos_eq by lra. split; [ring|reflexivity]. }
    destruct Hx' as [Hx1 Hx2]. rewrite Hx1 in R1, R5, R6. rewrite Hx2 in R2.
    exists r, c''. split; [exact Et|]. split; [exact R1|]. split; [exact R2|]. split; [rewrite R3; exact Q3|]. split; [rewrite R4; exact Q4|].
    change (pbits (free_move exact dt q)) with (pbits q) in R5, R6. rewrite Q6 in R5, R6. split.
    + intros H. destruct (R5 H) as (A1 & A2 & _). by split.
    + intros H. destruct (R6 H) as (A1 & A2 & _). by split.
Qed.

(** C66: the mesh of the spherical example meets all this: the constructor succeeds for every number of cells, radii and stretch factor, and a charged particle that starts
    in its cell is found again in a cell that contains its end point, mirrored at [rmin] if need be, or is deleted beyond [rmax]. *)
Theorem C66_radial {K} (bcs : Z -> option (bcfun (K:=K))) recd n rmin rmax st i j maxc :
  (0 < n)%nat -> rmin < rmax -> 0 < st -> i <> 0%Z -> j <> 0%Z -> bcs i = Some (reflect_bc exact) -> bcs j = Some absorb_bc ->
  (forall c fi p t, exists c', recd c fi p t = Ok c' /\ scr c' = scr c) -> (2 * Z.of_nat n <= maxc)%Z ->
  exists m, radial_mesh n rmin rmax st i j = Ok m /\
  forall fi time dt p c x y u cr, px p = [x] -> px0 p = [y] -> pu p = [u] -> cells m (pcell p) = Some cr -> InCell 1 cr [y] -> is_deleted p = false ->
    let r := rmin + Rabs (x - rmin) in
    exists q c', track exact bcs recd Charged m maxc fi time dt p c = Ok (q, c') /\ px q = [r] /\ pu q = [if Rltb x rmin then - u else u] /\ pw q = pw p /\ puid q = puid p /\
      (r <= rmax -> pbits q = pbits p /\ exists cr', cells m (pcell q) = Some cr' /\ InCell 1 cr' [r]) /\
      (rmax < r -> pbits q = Z.lor (pbits p) DELETE_FLAG /\ pcell q = NO_CELL).
Proof.
  intros Hn Hr Hs Hi Hj Hbi Hbj Hrec Hmax. set (vs := radial_vertices n rmin rmax st). set (mk := radial_marker n i j).
  destruct (C35_vertices n rmin rmax st Hn Hr Hs) as (Hl & HI & Ha & Hb). fold vs in Hl, HI, Ha, Hb.
  destruct (radial_marker_ends n i j Hn) as (M0 & Mn & Mo). fold mk in M0, Mn, Mo.
  destruct (interval_mesh_ok vs mk HI) as (m & E & Hd & Hmk & Hins & Hcells). exists m. split; [exact E|].
  assert (Hin : forall c x, (exists cr', cells m c = Some cr' /\ InCell 1 cr' [x]) <-> Holds vs c x).
  { intros c x. split.
    - intros (cr' & Hc & HIn). apply Hcells in Hc as (x0 & x1 & Hc & E1 & E2 & Hlt & ->). apply in_interval in HIn. exists x0, x1. split; [lia|]. done.
    - intros (x0 & x1 & H0 & E1 & E2 & Hx). eexists. split; [apply Hcells; exists x0, x1; split; [apply lookup_lt_Some in E2; lia|];
        split; [exact E1|]; split; [exact E2|]; split; [exact (HI _ _ _ E1 E2)|reflexivity]|]. by apply in_interval. }
  intros fi time dt p c x y u cr Hx Hx0 Hu Hcr HIn Hdel r.
  assert (HH : Holds vs (pcell p) y) by (apply Hin; by exists cr).
  assert (Hn' : Z.of_nat (pred (length vs)) = Z.of_nat n) by (rewrite Hl; reflexivity).
  destruct (C66_tracking bcs recd vs mk m maxc fi time dt p c x y u rmin rmax) as (q & c' & Et & S1 & S2 & S3 & S4 & T1 & T2); rewrite ?Hn'; try assumption.
  - intros f Hf. apply Mo; lia.
  - by rewrite M0.
  - by rewrite M0.
  - by rewrite Mn.
  - by rewrite Mn.
  - assert (Hrr : (if Rltb x rmin then 2 * rmin - x else x) = r).
    { subst r. destruct (Rlt_le_dec x rmin) as [H|H].
      - rewrite (proj2 (Rltb_true _ _)) by lra. rewrite Rabs_left by lra. ring.
      - rewrite (proj2 (Rltb_false _ _)) by lra. rewrite Rabs_pos_eq by lra. ring. }
    rewrite Hrr in S1, T1, T2. exists q, c'. split; [exact Et|]. split; [exact S1|]. split; [exact S2|]. split; [exact S3|]. split; [exact S4|]. split.
    + intros H. destruct (T1 H) as (B1 & B2 & _). split; [exact B1|]. by apply Hin.
    + intros H. destruct (T2 H) as (B1 & B2 & _). by split.
Qed.

(** C66, the neutral mover: it does not write the move vector that the reflection reads.  If the vector left there by an earlier move points outwards or is zero, then every
    neutral particle of the first cell that passes the reflecting end stops the run. *)
Theorem C66_neutral_refuted {K} (bcs : Z -> option (bcfun (K:=K))) recd vs mk m maxc fi time dt p c x y u a d :
  Increasing vs -> interval_mesh vs mk = Ok m -> head vs = Some a ->
  mk 0%Z <> 0%Z -> bcs (mk 0%Z) = Some (reflect_bc exact) ->
  (forall c i p t, exists c', recd c i p t = Ok c' /\ scr c' = scr c) ->
  px p = [x] -> px0 p = [y] -> pu p = [u] -> pcell p = 0%Z -> Holds vs 0 y -> is_deleted p = false -> (2 <= maxc)%Z ->
  x < a -> scr c = [d] -> 0 <= d ->
  track exact bcs recd Neutral m maxc fi time dt p c = Raise (track_fail Neutral SameFacetMsg).
Proof.
  intros HI Hm Ha Hz Hbc Hrec Hx Hx0 Hu Hpc (x0' & x1 & _ & E1 & E2 & Hb) Hdel Hmax Hlt Hd0 Hdp.
  rewrite head_lookup in Ha. change (Z.to_nat 0) with 0%nat in *. rewrite Ha in E1. injection E1 as <-.
  destruct (interval_mesh_ok vs mk HI) as (m' & E' & Hd & Hmk & Hins & Hcells). rewrite Hm in E'. injection E' as <-.
  set (cr := CellRec [[a]; [x1]] [[-1]; [1]] [0; 0 + 1]%Z (line_row (pred (length vs)) 0)).
  assert (Hcr : LineCell vs 0 cr).
  { exists a, x1. split; [apply lookup_lt_Some in E2; lia|]. split; [exact Ha|]. split; [exact E2|]. split; [exact (HI _ _ _ Ha E2)|reflexivity]. }
  assert (Hni : forall z, z < a -> interval_inside vs 0 [z] = false).
  { intros z Hz'. destruct (interval_inside_spec vs 0 cr z Hcr) as (y0 & y1 & F1 & F2 & Hi). change (Z.to_nat 0) with 0%nat in *. rewrite Ha in F1. rewrite E2 in F2. injection F1 as <-. injection F2 as <-.
    destruct (interval_inside vs 0 [z]); [assert (a <= z <= x1) by (by apply Hi); lra|done]. }
  set (f := (y - a) / (y - x)). set (x' := x - 2 * (0 + -1 * ((1 - f) * d)) * -1).
  assert (Hf : 0 <= 1 - f).
  { subst f. replace (1 - (y - a) / (y - x)) with ((a - x) * / (y - x)) by (field; lra). apply Rmult_le_pos; [lra|]. left. apply Rinv_0_lt_compat. lra. }
  assert (Hx' : x' < a) by (subst x'; assert (0 <= (1 - f) * d) by (apply Rmult_le_pos; lra); lra).
  unfold track, track_fuel. rewrite Hpc. cbn [track_loop]. rewrite (proj2 (Hcells 0%Z cr) Hcr). rewrite Hd, Hx, Hins. cbn [take]. rewrite Hni by exact Hlt.
  replace (maxc <? 0 + 1)%Z with false by lia. rewrite Hx0. cbn [vsub zip_with]. change (exact (x - y)) with (x - y). unfold cr at 1.
  rewrite (find_facet_left a x1 _ _ y x Hb Hlt). fold f. cbn iota beta. change (0 =? NO_FACET)%Z with false. cbn iota beta.
  unfold cr at 1. cbn [fids]. change (py_get [0%Z; (0 + 1)%Z] 0) with (Ok 0%Z). cbn iota beta. change (0 =? NO_FACET)%Z with false. cbn iota beta.
  assert (Hv : vadd exact [y] (vscale exact f [x - y]) = [a]) by (subst f; cbn; unfold exact; f_equal; field; lra).
  rewrite Hv. set (c1 := put_move Neutral c [x - y]). set (tS1 := exact (_ + _)). unfold on_marker at 1. rewrite Hmk. replace (mk 0 =? 0)%Z with false by lia.
  assert (exists c2, (if is_traj (set_px0 p [a]) then recd c1 fi (set_px0 p [a]) tS1 else Ok c1) = Ok c2 /\ scr c2 = [d]) as (c2 & -> & Hs).
  { destruct (is_traj _).
    - destruct (Hrec c1 fi (set_px0 p [a]) tS1) as (c2 & E & Hs). exists c2. split; [exact E|]. rewrite Hs. exact Hd0.
    - exists c1. split; [reflexivity|exact Hd0]. }
  cbn iota beta. rewrite Hbc. unfold reflect_bc at 1. rewrite Hs. change (pu (set_px0 p [a])) with (pu p). rewrite Hu. cbn [length Nat.eqb negb orb]. cbn iota beta.
  unfold cr at 1. cbn [nbrs]. unfold line_row at 1. change (py_get [(0 - 1)%Z; _] 0) with (Ok (-1)%Z). cbn iota beta. change (-1 =? NO_CELL)%Z with true. cbn iota beta.
  change (is_deleted (reflect_from_surface _ _ _ _)) with (is_deleted p). rewrite Hdel. cbn iota.
  match goal with |- context [reflect_from_surface ?f0 ?nn ?o ?q] => set (p2 := reflect_from_surface f0 nn o q) end.
  assert (P1 : px p2 = [x']). { subst p2. unfold reflect_from_surface. change (px (set_px0 p [a])) with (px p). rewrite Hx. reflexivity. }
  assert (P2 : px0 p2 = [a]) by reflexivity.
  rewrite P1, P2. cbn [take]. rewrite Hni by exact Hx'. replace (maxc <? 0 + 1 + 1)%Z with false by lia. cbn [vsub zip_with]. change (exact (x' - a)) with (x' - a). unfold cr at 1.
  pose proof (HI _ _ _ Ha E2). rewrite (find_facet_left a x1 _ _ a x') by lra. cbn iota beta. change (0 =? NO_FACET)%Z with false. cbn iota beta.
  unfold cr at 1. cbn [fids]. change (py_get [0%Z; (0 + 1)%Z] 0) with (Ok 0%Z). cbn iota beta. rewrite Z.eqb_refl. reflexivity.
Qed.

(** ** Examples: the mesh with vertices 1, 2, 5, whose lower end (1) reflects and whose upper end (2) absorbs *)
Definition ex_vs : list R := [1; 2; 5].
Definition ex_bcs : Z -> option (bcfun (K:=unit)) := fun v => if (v =? 1)%Z then Some (reflect_bc exact) else if (v =? 2)%Z then Some absorb_bc else None.
Definition ex_rec : tctx (K:=unit) -> Z -> particle -> R -> res (tctx (K:=unit)) := fun c _ _ _ => Ok c.
Lemma ex_mesh : exists m, interval_mesh ex_vs (radial_marker 2 1 2) = Ok m /\ Increasing ex_vs /\
  (forall f, (0 < f < 2)%Z -> radial_marker 2 1 2 f = 0%Z) /\ radial_marker 2 1 2 0 = 1%Z /\ radial_marker 2 1 2 2 = 2%Z.
Proof.
  assert (HI : Increasing ex_vs).
  { intros [|[|[|i]]] x y Hx Hy; cbn in Hx, Hy; try discriminate; injection Hx as <-; injection Hy as <-; lra. }
  destruct (radial_marker_ends 2 1 2) as (M0 & M2 & Mo); [lia|]. change (Z.of_nat 2) with 2%Z in M2.
  destruct (interval_mesh_ok ex_vs (radial_marker 2 1 2) HI) as (m & E & _). exists m. split; [exact E|]. split; [exact HI|].
  split; [intros f Hf; apply Mo; lia|]. by split.
Qed.
Lemma ex_cell c x : Holds ex_vs c x -> (x < 2 -> c = 0%Z) /\ (2 < x -> c = 1%Z).
Proof.
  intros (x0 & x1 & H0 & G1 & G2 & Hx). remember (Z.to_nat c) as w eqn:Ew. destruct w as [|[|[|w]]]; cbn in G1, G2; try discriminate; injection G1 as <-; injection G2 as <-; split; intros; (lra || lia).
Qed.
(** A move from 3 (cell 1) to 1/2 turns at 1 and ends at 3/2, in cell 0, after two crossings. *)
Example C66_tracking_example : exists m, interval_mesh ex_vs (radial_marker 2 1 2) = Ok m /\
  exists q c', track exact ex_bcs ex_rec Charged m 4 0 1 1 (Particle [1 / 2] [3] [- (5 / 2)] 1 0 1 8 0) (TCtx [0] tt) = Ok (q, c') /\
    px q = [3 / 2] /\ pu q = [5 / 2] /\ pcell q = 0%Z /\ pbits q = 0%Z /\ pcross q = 2%Z.
Proof.
  destruct ex_mesh as (m & E & HI & Hin & M0 & M2). exists m. split; [exact E|].
  destruct (C66_tracking ex_bcs ex_rec ex_vs (radial_marker 2 1 2) m 4 0 1 1 (Particle [1 / 2] [3] [- (5 / 2)] 1 0 1 8 0) (TCtx [0] tt) (1 / 2) 3 (- (5 / 2)) 1 5)
    as (q & c' & Et & S1 & S2 & _ & _ & T1 & _); try reflexivity; try assumption.
  - rewrite M0. lia.
  - rewrite M0. reflexivity.
  - change (Z.of_nat (pred (length ex_vs))) with 2%Z. rewrite M2. lia.
  - change (Z.of_nat (pred (length ex_vs))) with 2%Z. rewrite M2. reflexivity.
  - intros c i p t. exists c. split; reflexivity.
  - exists 2, 5. split; [cbn; lia|]. split; [reflexivity|]. split; [reflexivity|]. lra.
  - rewrite (proj2 (Rltb_true (1 / 2) 1)) in * by lra. destruct T1 as (B1 & B2 & B3); [lra|].
    assert (Hc : pcell q = 0%Z) by (apply (ex_cell _ _ B2); lra). exists q, c'. split; [exact Et|]. split; [rewrite S1; f_equal; lra|]. split; [rewrite S2; f_equal; lra|].
    split; [exact Hc|]. split; [exact B1|]. rewrite B3, Hc. reflexivity.
Qed.
(** A free particle that starts at 3/2 with velocity -1 is at 7/2 with velocity 1 after three steps, and deleted in the fifth. *)
Example C66_flight_example : exists m, interval_mesh ex_vs (radial_marker 2 1 2) = Ok m /\
  (exists q c', flight ex_bcs ex_rec m 4 0 1 1 INR 3 (Particle [3 / 2] [3 / 2] [-1] 1 0 0 8 0) (TCtx [0] tt) = Ok (q, c') /\
    px q = [7 / 2] /\ pu q = [1] /\ pcell q = 1%Z /\ pbits q = 0%Z) /\
  (exists q c', flight ex_bcs ex_rec m 4 0 1 1 INR 5 (Particle [3 / 2] [3 / 2] [-1] 1 0 0 8 0) (TCtx [0] tt) = Ok (q, c') /\
    px q = [11 / 2] /\ pcell q = (-1)%Z /\ pbits q = 1%Z).
Proof.
  destruct ex_mesh as (m & E & HI & Hin & M0 & M2). exists m. split; [exact E|].
  set (p := Particle [3 / 2] [3 / 2] [-1] 1 0 0 8 0).
  assert (HF := C66_flight ex_bcs ex_rec ex_vs (radial_marker 2 1 2) m 4 0 1 1 INR p (TCtx [0] tt) (3 / 2) (-1) 1 5 HI E eq_refl eq_refl Hin).
  change (Z.of_nat (pred (length ex_vs))) with 2%Z in HF. rewrite M0, M2 in HF. specialize (HF ltac:(lia) eq_refl ltac:(lia) eq_refl).
  specialize (HF ltac:(intros c i p' t; exists c; split; reflexivity) eq_refl eq_refl). cbn zeta in HF.
  specialize (HF ltac:(exists 1, 2; split; [cbn; lia|]; split; [reflexivity|]; split; [reflexivity|]; lra) eq_refl ltac:(lia)).
  assert (Hs : forall i, (i < 5)%nat -> 1 + Rabs (3 / 2 - 1 + INR i * (-1 * 1)) <= 5).
  { intros i Hi. assert (INR i <= 4) by (replace 4 with (INR 4) by (cbn; lra); apply le_INR; lia). pose proof (pos_INR i). unfold Rabs. destruct (Rcase_abs _); lra. }
  split.
  - destruct (HF 3%nat) as (q & c' & Ef & S1 & S2 & _ & _ & T1 & _); [intros i Hi; apply Hs; lia|].
    replace (3 / 2 - 1 + INR 3 * (-1 * 1)) with (- (5 / 2)) in * by (cbn; lra). rewrite Rabs_left in * by lra. rewrite (proj2 (Rltb_true _ 0)) in S2 by lra.
    destruct T1 as (B1 & B2); [lra|]. exists q, c'. split; [exact Ef|]. split; [rewrite S1; f_equal; lra|]. split; [rewrite S2; f_equal; lra|]. split; [apply (ex_cell _ _ B2); lra|exact B1].
  - destruct (HF 5%nat Hs) as (q & c' & Ef & S1 & _ & _ & _ & _ & T2).
    replace (3 / 2 - 1 + INR 5 * (-1 * 1)) with (- (9 / 2)) in * by (cbn; lra). rewrite Rabs_left in * by lra.
    destruct T2 as (B1 & B2); [lra|]. exists q, c'. split; [exact Ef|]. split; [rewrite S1; f_equal; lra|]. split; [exact B2|exact B1].
Qed.
(** The radial mesh of three cells between 1 and 5 with stretch factor 2: a particle that would leave through the centre is kept, one that goes far enough inwards passes [rmax] on
    the other side. *)
Example C66_radial_example : exists m, radial_mesh 3 1 5 2 1 2 = Ok m /\
  forall p c cr x, px p = [x] -> px0 p = [3 / 2] -> pu p = [x - 3 / 2] -> cells m (pcell p) = Some cr -> InCell 1 cr [3 / 2] -> is_deleted p = false ->
    exists q c', track exact ex_bcs ex_rec Charged m 6 0 1 1 p c = Ok (q, c') /\ (x = -2 -> px q = [4] /\ pu q = [7 / 2] /\ pbits q = pbits p) /\ (x = -6 -> pcell q = NO_CELL).
Proof.
  destruct (C66_radial ex_bcs ex_rec 3 1 5 2 1 2 6) as (m & E & H); try reflexivity; try lia; try lra.
  - intros c fi p t. exists c. split; reflexivity.
  - exists m. split; [exact E|]. intros p c cr x H1 H2 H3 H4 H5 H6.
    destruct (H 0%Z 1 1 p c x (3 / 2) (x - 3 / 2) cr H1 H2 H3 H4 H5 H6) as (q & c' & Et & S1 & S2 & _ & _ & T1 & T2). exists q, c'. split; [exact Et|]. split.
    + intros ->. rewrite (proj2 (Rltb_true _ _)) in S2 by lra. rewrite Rabs_left in * by lra. split; [rewrite S1; f_equal; lra|]. split; [rewrite S2; f_equal; lra|]. apply T1. lra.
    + intros ->. rewrite Rabs_left in * by lra. apply T2. lra.
Qed.
(** With the neutral mover the move from 3/2 to 1/2 stops the run if the scratch array is still zero. *)
Example C66_neutral_example : exists m, interval_mesh ex_vs (radial_marker 2 1 2) = Ok m /\
  track exact ex_bcs ex_rec Neutral m 4 0 1 1 (Particle [1 / 2] [3 / 2] [-1] 1 0 0 8 0) (TCtx [0] tt) = Raise (track_fail Neutral SameFacetMsg).
Proof.
  destruct ex_mesh as (m & E & HI & Hin & M0 & M2). exists m. split; [exact E|].
  eapply (C66_neutral_refuted ex_bcs ex_rec ex_vs (radial_marker 2 1 2) m 4 0 1 1 _ _ (1 / 2) (3 / 2) (-1) 1 0); try reflexivity; try assumption; try lia; try lra.
  - rewrite M0. reflexivity.
  - intros c i p t. exists c. split; reflexivity.
  - exists 1, 2. split; [lia|]. split; [reflexivity|]. split; [reflexivity|]. lra.
Qed.

Print Assumptions C66_tracking.
Print Assumptions C66_flight.
Print Assumptions C66_radial.
Print Assumptions C66_neutral_refuted.

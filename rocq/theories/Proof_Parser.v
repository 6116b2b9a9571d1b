(** The parser, computed: what each parse function returns as a function of the text. *)

From Coq Require Import List Bool Arith NArith Lia String.
From Verif Require Import Model_Base Model_Space Model_Moves Model_NonRedundant Model_Orientable Model_Parser
  Spec_Notation.
Import ListNotations.
Local Open Scope list_scope.
Local Arguments N.eqb : simpl never.

(** Letters. *)
Definition face_of (c : N) : option Face :=
  if N.eqb 82 c then Some fR else if N.eqb 85 c then Some fU else if N.eqb 70 c then Some fF
  else if N.eqb 76 c then Some fL else if N.eqb 68 c then Some fD else if N.eqb 66 c then Some fB
  else None.
Definition small_face_of (c : N) : option Face :=
  if N.eqb 114 c then Some fR else if N.eqb 117 c then Some fU else if N.eqb 102 c then Some fF
  else if N.eqb 108 c then Some fL else if N.eqb 100 c then Some fD else if N.eqb 98 c then Some fB
  else None.
Definition axis_of (c : N) : option Axis :=
  if N.eqb 120 c then Some AX else if N.eqb 121 c then Some AY else if N.eqb 122 c then Some AZ else None.
Definition slice_of (c : N) : option Axis :=
  if N.eqb 77 c then Some AX else if N.eqb 69 c then Some AY else if N.eqb 83 c then Some AZ else None.
Definition small_slice_of (c : N) : option Axis :=
  if N.eqb 109 c then Some AX else if N.eqb 101 c then Some AY else if N.eqb 115 c then Some AZ else None.
Definition take_amount (s : text) : Amount * text :=
  match s with
  | c :: r => if N.eqb 50 c then (Double, r) else if N.eqb 39 c then (Inverse, r) else (Single, s)
  | [] => (Single, [])
  end.

Definition face_text f := lit (face_name f).
Definition small_face_text f := lit (small_face_name f).
Definition amount_text a := lit (amount_suffix a).

Section Run.
  Context (isn : N -> bool).

  (** Result of a rule that reads one letter. *)
  Definition letter_result {A} (r : Rule) (of : N -> option A) (name : A -> text) (s : text) : peg_result :=
    match s with
    | [] => PegFail
    | c :: rest => match of c with
                   | Some a => PegOk [mkPair r (name a) []] (name a) rest
                   | None => PegFail
                   end
    end.

  Ltac letters :=
    intros k s; destruct s as [|c s]; [reflexivity|]; cbn;
    repeat match goal with |- context [N.eqb ?x ?c] => destruct (N.eqb x c) eqn:?E; [reflexivity|cbn] end;
    reflexivity.

  Lemma run_face : forall k s, peg_run isn (7 + k) (PRule r_face) s = letter_result r_face face_of face_text s.
  Proof. unfold letter_result, face_of. letters. Qed.
  Lemma run_face_small : forall k s,
    peg_run isn (7 + k) (PRule r_face_small) s = letter_result r_face_small small_face_of small_face_text s.
  Proof. unfold letter_result, small_face_of. letters. Qed.
  Lemma run_axis : forall k s,
    peg_run isn (4 + k) (PRule r_axis) s = letter_result r_axis axis_of (fun a => lit (rotation_name a)) s.
  Proof. unfold letter_result, axis_of. letters. Qed.
  Lemma run_slice : forall k s,
    peg_run isn (4 + k) (PRule r_slice) s = letter_result r_slice slice_of (fun a => lit (slice_name a)) s.
  Proof. unfold letter_result, slice_of. letters. Qed.
  Lemma run_slice_small : forall k s,
    peg_run isn (4 + k) (PRule r_slice_small) s
    = letter_result r_slice_small small_slice_of (fun a => lit (small_slice_name a)) s.
  Proof. unfold letter_result, small_slice_of. letters. Qed.
  Lemma run_amount : forall k s,
    peg_run isn (4 + k) (PRule r_amount) s
    = let (a, rest) := take_amount s in PegOk [mkPair r_amount (amount_text a) []] (amount_text a) rest.
  Proof. unfold take_amount. letters. Qed.

  (** Unfolding equations. *)
  Lemma run_rule k r s : peg_run isn (S k) (PRule r) s =
    match peg_run isn k (grammar r) s with
    | PegOk inner c rest => PegOk [mkPair r c inner] c rest
    | x => x
    end.
  Proof. reflexivity. Qed.
  Lemma run_seq k a b s : peg_run isn (S k) (PSeq a b) s =
    match peg_run isn k a s with
    | PegOk p1 c1 rest =>
        match peg_run isn k b rest with
        | PegOk p2 c2 rest => PegOk (p1 ++ p2) (c1 ++ c2) rest
        | r => r
        end
    | r => r
    end.
  Proof. reflexivity. Qed.
  Lemma run_alt k a b s : peg_run isn (S k) (PAlt a b) s =
    match peg_run isn k a s with PegFail => peg_run isn k b s | r => r end.
  Proof. reflexivity. Qed.
  Lemma run_w k s : peg_run isn (S k) (PLit (lit "w")) s =
    match s with c :: r => if N.eqb 119 c then PegOk [] (lit "w") r else PegFail | [] => PegFail end.
  Proof. destruct s as [|c s]; [reflexivity|]. cbn. destruct (N.eqb 119 c); reflexivity. Qed.
  Lemma run_depth k s : peg_run isn (3 + k) (PRule r_depth) s =
    match s with
    | c :: r => if isn c then PegOk [mkPair r_depth [c] []] [c] r
                else PegOk [mkPair r_depth [] []] [] s
    | [] => PegOk [mkPair r_depth [] []] [] []
    end.
  Proof. destruct s as [|c s]; [reflexivity|]. cbn. destruct (isn c); reflexivity. Qed.

  Lemma lit_app a b : lit (a ++ b)%string = lit a ++ lit b.
  Proof. induction a; cbn; congruence. Qed.

  (** The compound rules. *)
  Lemma run_axis_move k s : peg_run isn (9 + k) (PRule r_axis_move) s =
    match s with
    | [] => PegFail
    | c :: r => match face_of c with
                | Some f => let (a, rest) := take_amount r in
                    PegOk [mkPair r_axis_move (face_text f ++ amount_text a)
                             [mkPair r_face (face_text f) []; mkPair r_amount (amount_text a) []]]
                          (face_text f ++ amount_text a) rest
                | None => PegFail
                end
    end.
  Proof.
    change (9 + k) with (S (8 + k)). rewrite run_rule. cbn [grammar].
    change (8 + k) with (S (7 + k)). rewrite run_seq, run_face. unfold letter_result.
    destruct s as [|c r]; [reflexivity|]. destruct (face_of c) as [f|]; [|reflexivity].
    change (7 + k) with (4 + (3 + k)). rewrite run_amount. destruct (take_amount r) as [a rest].
    reflexivity.
  Qed.

  Lemma run_rotation k s : peg_run isn (6 + k) (PRule r_rotation) s =
    match s with
    | [] => PegFail
    | c :: r => match axis_of c with
                | Some f => let (a, rest) := take_amount r in
                    PegOk [mkPair r_rotation (lit (rotation_name f) ++ amount_text a)
                             [mkPair r_axis (lit (rotation_name f)) []; mkPair r_amount (amount_text a) []]]
                          (lit (rotation_name f) ++ amount_text a) rest
                | None => PegFail
                end
    end.
  Proof.
    change (6 + k) with (S (5 + k)). rewrite run_rule. cbn [grammar].
    change (5 + k) with (S (4 + k)). rewrite run_seq, run_axis. unfold letter_result.
    destruct s as [|c r]; [reflexivity|]. destruct (axis_of c) as [f|]; [|reflexivity].
    rewrite run_amount. destruct (take_amount r) as [a rest]. reflexivity.
  Qed.

  Lemma run_slice_move k s : peg_run isn (7 + k) (PRule r_slice_move) s =
    match s with
    | [] => PegFail
    | c :: r =>
        let res rule name := let (a, rest) := take_amount r in
          PegOk [mkPair r_slice_move (name ++ amount_text a)
                   [mkPair rule name []; mkPair r_amount (amount_text a) []]]
                (name ++ amount_text a) rest in
        match slice_of c with
        | Some f => res r_slice (lit (slice_name f))
        | None => match small_slice_of c with
                  | Some f => res r_slice_small (lit (small_slice_name f))
                  | None => PegFail
                  end
        end
    end.
  Proof.
    change (7 + k) with (S (6 + k)). rewrite run_rule. cbn [grammar].
    change (6 + k) with (S (5 + k)). rewrite run_seq.
    change (5 + k) with (S (4 + k)) at 1. rewrite run_alt, run_slice, run_slice_small.
    unfold letter_result. change (5 + k) with (4 + (1 + k)).
    destruct s as [|c r]; [reflexivity|].
    destruct (slice_of c) as [f|]; [|destruct (small_slice_of c) as [f|]; [|reflexivity]];
      rewrite run_amount; destruct (take_amount r) as [a rest]; reflexivity.
  Qed.

  (** [wide_face] on a text. *)
  Definition wide_face_result (s : text) : peg_result :=
    match s with
    | [] => PegFail
    | c :: r =>
        match face_of c with
        | Some f =>
            match r with
            | c' :: r' => if N.eqb 119 c' then
                PegOk [mkPair r_wide_face (face_text f ++ lit "w") [mkPair r_face (face_text f) []]]
                      (face_text f ++ lit "w") r'
                else PegFail
            | [] => PegFail
            end
        | None =>
            match small_face_of c with
            | Some f => PegOk [mkPair r_wide_face (small_face_text f)
                                 [mkPair r_face_small (small_face_text f) []]] (small_face_text f) r
            | None => PegFail
            end
        end
    end.

  Lemma face_not_small c f : face_of c = Some f -> small_face_of c = None.
  Proof.
    unfold face_of, small_face_of.
    repeat match goal with
    | |- context [N.eqb ?x c] =>
        let E := fresh in destruct (N.eqb x c) eqn:E; [apply N.eqb_eq in E; subst c; try discriminate|]
    end; try reflexivity; intros; discriminate.
  Qed.

  Lemma run_wide_face k s : peg_run isn (10 + k) (PRule r_wide_face) s = wide_face_result s.
  Proof.
    change (10 + k) with (S (9 + k)). rewrite run_rule. cbn [grammar].
    change (9 + k) with (S (8 + k)). rewrite run_alt.
    change (8 + k) with (S (7 + k)) at 1. rewrite run_seq, run_face.
    change (8 + k) with (7 + (1 + k)). rewrite run_face_small.
    unfold letter_result, wide_face_result.
    destruct s as [|c r]; [reflexivity|]. destruct (face_of c) as [f|] eqn:F.
    - change (7 + k) with (S (6 + k)). rewrite run_w. rewrite (face_not_small c f F).
      destruct r as [|c' r']; [reflexivity|]. destruct (N.eqb 119 c'); reflexivity.
    - destruct (small_face_of c); reflexivity.
  Qed.

  (** [wide_move]: the face part, then the amount. *)
  Definition wide_head (s : text) : option (list Pair * text * text) :=
    let (d, s') := match s with
                   | c :: r => if isn c then ([c], r) else ([], s)
                   | [] => ([], [])
                   end in
    match wide_face_result s' with
    | PegOk p c rest => Some (mkPair r_depth d [] :: p, d ++ c, rest)
    | _ =>
        match s with
        | c :: r => match face_of c with
                    | Some f => Some ([mkPair r_face (face_text f) []], face_text f, r)
                    | None => None
                    end
        | [] => None
        end
    end.

  Lemma wide_face_no_fuel s : wide_face_result s <> PegFuel.
  Proof.
    unfold wide_face_result. destruct s as [|c r]; [discriminate|].
    destruct (face_of c); [destruct r as [|c' r']; [discriminate|destruct (N.eqb 119 c'); discriminate]|].
    destruct (small_face_of c); discriminate.
  Qed.

  Lemma run_wide_move k s : peg_run isn (14 + k) (PRule r_wide_move) s =
    match wide_head s with
    | Some (p, c, r) => let (a, rest) := take_amount r in
        PegOk [mkPair r_wide_move (c ++ amount_text a) (p ++ [mkPair r_amount (amount_text a) []])]
              (c ++ amount_text a) rest
    | None => PegFail
    end.
  Proof.
    change (14 + k) with (S (13 + k)). rewrite run_rule. cbn [grammar].
    change (13 + k) with (S (12 + k)). rewrite run_seq.
    change (12 + k) with (S (11 + k)) at 1. rewrite run_alt.
    change (11 + k) with (S (10 + k)) at 1. rewrite run_seq.
    change (10 + k) with (3 + (7 + k)) at 1. rewrite run_depth.
    change (11 + k) with (7 + (4 + k)). rewrite run_face.
    change (12 + k) with (4 + (8 + k)). unfold letter_result, wide_head.
    assert (A : forall r, peg_run isn (4 + (8 + k)) (PRule r_amount) r =
      let (a, rest) := take_amount r in PegOk [mkPair r_amount (amount_text a) []] (amount_text a) rest)
      by (intros; apply run_amount).
    assert (B : forall s, peg_run isn (10 + k) (PRule r_wide_face) s = wide_face_result s)
      by (intros; apply run_wide_face).
    destruct s as [|c r]; [rewrite B; reflexivity|].
    destruct (isn c); rewrite B;
    [destruct (wide_face_result r) as [p cc rest| |] eqn:W
    |destruct (wide_face_result (c :: r)) as [p cc rest| |] eqn:W];
    try (exfalso; exact (wide_face_no_fuel _ W));
    try (rewrite A; destruct (take_amount rest); reflexivity);
    (destruct (face_of c); [rewrite A; destruct (take_amount r); reflexivity|reflexivity]).
  Qed.

  Lemma run_extended k s : peg_run isn (18 + k) (PRule r_extended_move) s =
    match peg_run isn (14 + (2 + k)) (PRule r_wide_move) s with
    | PegOk p c rest => PegOk [mkPair r_extended_move c p] c rest
    | PegFuel => PegFuel
    | PegFail =>
    match peg_run isn (9 + (6 + k)) (PRule r_axis_move) s with
    | PegOk p c rest => PegOk [mkPair r_extended_move c p] c rest
    | PegFuel => PegFuel
    | PegFail =>
    match peg_run isn (6 + (8 + k)) (PRule r_rotation) s with
    | PegOk p c rest => PegOk [mkPair r_extended_move c p] c rest
    | PegFuel => PegFuel
    | PegFail =>
    match peg_run isn (7 + (7 + k)) (PRule r_slice_move) s with
    | PegOk p c rest => PegOk [mkPair r_extended_move c p] c rest
    | PegFuel => PegFuel
    | PegFail => PegFail
    end end end end.
  Proof.
    change (18 + k) with (S (17 + k)). rewrite run_rule. cbn [grammar].
    change (17 + k) with (S (16 + k)). rewrite run_alt.
    change (14 + (2 + k)) with (16 + k).
    destruct (peg_run isn (16 + k) (PRule r_wide_move) s); try reflexivity.
    change (16 + k) with (S (15 + k)). rewrite run_alt.
    change (9 + (6 + k)) with (15 + k).
    destruct (peg_run isn (15 + k) (PRule r_axis_move) s); try reflexivity.
    change (15 + k) with (S (14 + k)). rewrite run_alt.
    change (6 + (8 + k)) with (14 + k).
    destruct (peg_run isn (14 + k) (PRule r_rotation) s); try reflexivity.
  Qed.
End Run.

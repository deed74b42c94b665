(** Greenwald-Khanna quantile sketch: optbinning/binning/distributed/gk.py.
    Values are integers (only their order and the sum are used by the code), [eps] and [q] are exact
    rationals: floating point rounding of [eps * (n - 1)] is not modelled. *)
From Coq Require Import List ZArith Bool QArith Qround.
From Verif Require Import Model.Arr.
Import ListNotations.
Open Scope Z_scope.

(** gk.py:16-34 *)
Record entry := mkE { ev : Z; eg : Z; ed : Z }.
(** [tn.g += t.g] (gk.py:151, 160, 167, 178) *)
Definition bump (k : Z) (e : entry) : entry := mkE (ev e) (eg e + k) (ed e).

(** gk.py:45-55. [gmin]/[gmax] are [None] for the initial [inf] / [-inf]. *)
Record gk := mkGK { eps : Q; entries : list entry; incoming : list Z; gmin : option Z; gmax : option Z;
                    gcount : Z; gsum_ : Z }.
Definition gk_new (e : Q) : gk := mkGK e [] [] None None 0 0.
(** [int(x)] for a non-negative float *)
Definition to_int (x : Q) : Z := Qfloor x.
(** gk.py:55 *)
Definition compress_threshold (e : Q) : Z := to_int (1 / e) + 1.

(** gk.py:129 [float(2.0 * eps * (count - 1))] *)
Definition remove_threshold (e : Q) (count : Z) : Q := (2 * e * inject_Z (count - 1))%Q.
Definition under (thr : Q) (t tn : entry) : bool := Qle_bool (inject_Z (eg t + eg tn + ed tn)) thr.

(** [sorted(incoming, key=value)] (stable; gk.py:136): insertion before the first strictly larger or
    equal element met from the right end, written as stable insertion from the right. *)
Fixpoint insert_e (x : entry) (l : list entry) : list entry :=
  match l with [] => [x] | y :: r => if Z.leb (ev x) (ev y) then x :: l else y :: insert_e x r end.
Fixpoint sort_e (l : list entry) : list entry :=
  match l with [] => [] | x :: r => insert_e x (sort_e r) end.

(** The [while] loop gk.py:144-180: [inc] = incoming[i:], [ents] = self.entries[j:] (entries updated in
    place); the result is what is appended to [merged]. [fuel] bounds the iterations
    (each one removes an element). *)
Fixpoint mc_loop (fuel : nat) (thr : Q) (inc ents : list entry) : list entry :=
  match fuel with
  | O => []
  | S f =>
    match inc, ents with
    | [], [] => []
    | [], t :: r =>                                        (* 145-153 *)
        match r with
        | tn :: r' => if under thr t tn then mc_loop f thr [] (bump (eg t) tn :: r') else t :: mc_loop f thr [] r
        | [] => t :: mc_loop f thr [] []
        end
    | t :: r, [] =>                                        (* 154-162 *)
        match r with
        | tn :: r' => if under thr t tn then mc_loop f thr (bump (eg t) tn :: r') [] else t :: mc_loop f thr r []
        | [] => t :: mc_loop f thr [] []
        end
    | ti :: ri, tj :: rj =>
        if Z.ltb (ev ti) (ev tj) then                      (* 163-171 *)
          if under thr ti tj then mc_loop f thr ri (bump (eg ti) tj :: rj)
          else mkE (ev ti) (eg ti) (eg tj + ed tj - eg ti) :: mc_loop f thr ri (tj :: rj)
        else                                               (* 172-180 *)
          match rj with
          | tn :: r' => if under thr tj tn then mc_loop f thr inc (bump (eg tj) tn :: r') else tj :: mc_loop f thr inc rj
          | [] => tj :: mc_loop f thr inc []
          end
    end
  end.

(** gk.py:127-183 *)
Definition merge_compress (s : gk) (extra : list entry) : gk :=
  let thr := remove_threshold (eps s) (gcount s) in
  let inc := sort_e (map (fun v => mkE v 1 0) (incoming s) ++ extra) in
  let merged := mc_loop (length inc + length (entries s) + 1) thr inc (entries s) in
  mkGK (eps s) merged [] (gmin s) (gmax s) (gcount s) (gsum_ s).

(** gk.py:62-74 *)
Definition add (s : gk) (v : Z) : gk :=
  let s1 := mkGK (eps s) (entries s) (incoming s ++ [v])
              (match gmin s with None => Some v | Some m => if Z.ltb v m then Some v else Some m end)
              (match gmax s with None => Some v | Some m => if Z.ltb m v then Some v else Some m end)
              (gcount s + 1) (gsum_ s + v) in
  if Z.eqb (Z.modulo (gcount s1) (compress_threshold (eps s))) 0 then merge_compress s1 [] else s1.

(** gk.py:197-198, 58-59: [if len(self.incoming): self.merge_compress()] *)
Definition flush (s : gk) : gk := match incoming s with [] => s | _ => merge_compress s [] end.

(** gk.py:57-60 *)
Definition gk_len (s : gk) : nat * gk := let s' := flush s in (length (entries s'), s').

(** gk.py:202-214: the scan; [prev] is [entries[i-1].value] or [_min] when [i == 0]. *)
Fixpoint scan (bound g : Z) (prev : option Z) (l : list entry) : option Z :=
  match l with
  | [] => prev
  | e :: r => let g := g + eg e in if Z.ltb bound (g + ed e) then prev else scan bound g (Some (ev e)) r
  end.

(** gk.py:189-214 *)
Definition quantile (s : gk) (q : Q) : res (Z * gk) :=
  if negb (Qle_bool 0 q && Qle_bool q 1) then Err ValueError
  else if Z.eqb (gcount s) 0 then Err ValueError
  else
    let s := flush s in
    let rank := to_int (q * inject_Z (gcount s - 1) + 1)%Q in
    let spread := to_int (eps s * inject_Z (gcount s - 1))%Q in
    match scan (rank + spread) 0 (gmin s) (entries s) with
    | Some v => Ok (v, s)
    | None => Err OtherError
    end.

(** gk.py:76-83 *)
Definition gk_copy (s o : gk) : gk := mkGK (eps s) (entries o) (incoming o) (gmin o) (gmax o) (gcount o) (gsum_ o).

Definition if_pos (g : Z) (e : entry) : list entry := if Z.ltb 0 g then [e] else [].
(** gk.py:108-113 *)
Fixpoint mid_entries (l : list entry) : list entry :=
  match l with
  | t :: ((tp1 :: _) as r) =>
      let g := eg tp1 + (ed tp1 - ed t) in if_pos g (mkE (ev t) g 0) ++ mid_entries r
  | _ => []
  end.
(** gk.py:97-118 (the other sketch has been compressed; it has at least one entry) *)
Definition exported (spread : Z) (mn : Z) (l : list entry) : list entry :=
  match l with
  | [] => []
  | e0 :: _ =>
      let g0 := eg e0 + ed e0 - 1 - spread in
      let lt := last l e0 in
      let gl := spread + 1 - ed lt in
      if_pos g0 (mkE mn g0 0) ++ mid_entries l ++ if_pos gl (mkE (ev lt) gl 0)
  end.

Definition omin (a b : option Z) : option Z :=
  match a, b with Some x, Some y => Some (Z.min x y) | Some x, None => Some x | None, o => o end.
Definition omax (a b : option Z) : option Z :=
  match a, b with Some x, Some y => Some (Z.max x y) | Some x, None => Some x | None, o => o end.

(** gk.py:85-125; returns the updated (self, gk). [s] and [o] are distinct objects. *)
Definition gk_merge (s o : gk) : res (gk * gk) :=
  if negb (Qeq_bool (eps s) (eps o)) then Err OtherError
  else if Z.eqb (gcount o) 0 then Ok (s, o)
  else if Z.eqb (gcount s) 0 then Ok (gk_copy s o, o)
  else
    let spread := to_int (eps o * inject_Z (gcount o - 1))%Q in
    let o1 := merge_compress o [] in
    match entries o1, gmin o1 with
    | [], _ | _, None => Err IndexError
    | l, Some mn =>
        let o2 := flush o1 in
        let ex := exported spread mn (entries o2) in
        let s1 := mkGK (eps s) (entries s) (incoming s) (omin (gmin s) (gmin o)) (omax (gmax s) (gmax o))
                    (gcount s + gcount o) (gsum_ s + gsum_ o) in
        Ok (merge_compress s1 ex, o2)
    end.

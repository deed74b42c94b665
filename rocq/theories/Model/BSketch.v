(** Binning sketches: optbinning/binning/distributed/bsketch.py (sketch = "gk"; t-digest is not modelled).
    Objects live in a store and hold references to shared mutable parts, so that aliasing is visible. *)
From Coq Require Import List ZArith Bool QArith.
From Verif Require Import Model.Arr Model.GK.
Import ListNotations.
Open Scope Z_scope.

(** One record given to [add], as classified by [split_data] (preprocessing.py:112-216, modelled in
    Model/Core.v): clean value, missing or special; target 1 = [true] (event) or 0. *)
Inductive kind (A : Type) := Clean (v : A) | Missing | Special.
Arguments Clean {A} _. Arguments Missing {A}. Arguments Special {A}.
Record rec_ (A : Type) := mkRec { rk : kind A; ry : bool }.
Arguments mkRec {A} _ _. Arguments rk {A} _. Arguments ry {A} _.

Definition clean_of {A} (y : bool) (l : list (rec_ A)) : list A :=
  flat_map (fun r => match rk r with Clean v => if Bool.eqb (ry r) y then [v] else [] | _ => [] end) l.
Definition is_missing {A} (r : rec_ A) : bool := match rk r with Missing => true | _ => false end.
Definition is_special {A} (r : rec_ A) : bool := match rk r with Special => true | _ => false end.
Definition countb {A} (f : A -> bool) (l : list A) : Z := Z.of_nat (length (filter f l)).

(** ** BSketch: bsketch.py:65-268. [re], [rne]: references to the GK objects. *)
Record bsk := mkB { re : nat; rne : nat; me : Z; mne : Z; se : Z; sne : Z }.
Record world := mkW { heap : list gk; objs : list bsk }.

Fixpoint set_nth {A} (n : nat) (x : A) (l : list A) : list A :=
  match n, l with
  | _, [] => []
  | O, _ :: r => x :: r
  | S n, y :: r => y :: set_nth n x r
  end.

(** bsketch.py:85-103 *)
Definition b_new (e : Q) (w : world) : world :=
  let h := length (heap w) in
  mkW (heap w ++ [gk_new e; gk_new e]) (objs w ++ [mkB h (S h) 0 0 0 0]).

(** bsketch.py:105-146 *)
Definition gk_adds (s : gk) (vs : list Z) : gk := fold_left add vs s.
Definition b_add (w : world) (i : nat) (l : list (rec_ Z)) : res world :=
  match nth_error (objs w) i with
  | None => Err OtherError
  | Some b =>
    match nth_error (heap w) (re b) with
    | None => Err OtherError
    | Some ge =>
      let h1 := set_nth (re b) (gk_adds ge (clean_of true l)) (heap w) in
      match nth_error h1 (rne b) with
      | None => Err OtherError
      | Some gne =>
        let h2 := set_nth (rne b) (gk_adds gne (clean_of false l)) h1 in
        let b' := mkB (re b) (rne b)
                    (me b + countb (fun r => is_missing r && ry r) l) (mne b + countb (fun r => is_missing r && negb (ry r)) l)
                    (se b + countb (fun r => is_special r && ry r) l) (sne b + countb (fun r => is_special r && negb (ry r)) l) in
        Ok (mkW h2 (set_nth i b' (objs w)))
      end
    end
  end.

(** [heap[r].merge(heap[r'])] *)
Definition h_merge (h : list gk) (r r' : nat) : res (list gk) :=
  match nth_error h r, nth_error h r' with
  | Some s, Some o =>
      if Nat.eqb r r' then Err OtherError   (* merging a GK into itself is not modelled *)
      else rbind (gk_merge s o) (fun p => Ok (set_nth r' (snd p) (set_nth r (fst p) h)))
  | _, _ => Err OtherError
  end.

(** bsketch.py:176-206, 220-228 (all sketches share the signature) *)
Definition b_merge (w : world) (i j : nat) : res world :=
  match nth_error (objs w) i, nth_error (objs w) j with
  | Some b, Some o =>
    match nth_error (heap w) (re b), nth_error (heap w) (rne b), nth_error (heap w) (re o), nth_error (heap w) (rne o) with
    | Some be, Some bne, Some oe, Some one =>
      if Z.eqb (gcount oe) 0 && Z.eqb (gcount one) 0 then Ok w                      (* 187-188 *)
      else if Z.eqb (gcount be) 0 && Z.eqb (gcount bne) 0 then                     (* 190-192 *)
        Ok (mkW (heap w) (set_nth i o (objs w)))
      else
        rbind (h_merge (heap w) (re b) (re o)) (fun h1 =>
        rbind (h_merge h1 (rne b) (rne o)) (fun h2 =>
        let b' := mkB (re b) (rne b) (me b + me o) (mne b + mne o) (se b + se o) (sne b + sne o) in
        Ok (mkW h2 (set_nth i b' (objs w)))))
    | _, _, _, _ => Err OtherError
    end
  | _, _ => Err OtherError
  end.

(** bsketch.py:238-268 *)
Definition b_n_event (w : world) (i : nat) : option Z :=
  match nth_error (objs w) i with
  | Some b => match nth_error (heap w) (re b) with Some g => Some (gcount g + me b + se b) | None => None end
  | None => None
  end.
Definition b_n_nonevent (w : world) (i : nat) : option Z :=
  match nth_error (objs w) i with
  | Some b => match nth_error (heap w) (rne b) with Some g => Some (gcount g + mne b + sne b) | None => None end
  | None => None
  end.

(** bsketch.py:46-62 and 161-172: [searchsorted(splits, v, side='left')] counts the splits < v *)
Definition ss_left (splits : list Z) (v : Z) : nat := length (filter (fun s => Z.ltb s v) splits).
Definition gk_bins (splits : list Z) (s : gk) : list Z :=
  let s := flush s in
  map (fun i => zsum (map eg (filter (fun t => Nat.eqb (ss_left splits (ev t)) i) (entries s))))
      (seq 0 (length splits + 1)).

(** ** BCatSketch: bsketch.py:271-460. A category's [nonevent, event] list is a heap cell; an object holds a
    dict category -> cell (insertion order). *)
Record csk := mkC { cells : list (Z * nat); cme : Z; cmne : Z; cse : Z; csne : Z }.
Record cworld := mkCW { cheap : list (Z * Z); cobjs : list csk }.

Fixpoint lookup (k : Z) (d : list (Z * nat)) : option nat :=
  match d with [] => None | (k', r) :: t => if Z.eqb k k' then Some r else lookup k t end.

Definition c_new (w : cworld) : cworld := mkCW (cheap w) (cobjs w ++ [mkC [] 0 0 0 0]).

(** bsketch.py:326-336: one record of [add]; state = (heap, dict) *)
Definition upd (y : bool) (c : Z * Z) : Z * Z := if y then (fst c, snd c + 1) else (fst c + 1, snd c).
Definition c_add1 (s : list (Z * Z) * list (Z * nat)) (r : rec_ Z) : list (Z * Z) * list (Z * nat) :=
  match rk r with
  | Clean k =>
      match lookup k (snd s) with
      | Some c => (set_nth c (upd (ry r) (nth c (fst s) (0, 0))) (fst s), snd s)
      | None => (fst s ++ [upd (ry r) (0, 0)], snd s ++ [(k, length (fst s))])
      end
  | _ => s
  end.
(** bsketch.py:307-347 *)
Definition c_add (w : cworld) (i : nat) (l : list (rec_ Z)) : res cworld :=
  match nth_error (cobjs w) i with
  | None => Err OtherError
  | Some b =>
      let s := fold_left c_add1 l (cheap w, cells b) in
      let b' := mkC (snd s)
                    (cme b + countb (fun r => is_missing r && ry r) l) (cmne b + countb (fun r => is_missing r && negb (ry r)) l)
                    (cse b + countb (fun r => is_special r && ry r) l) (csne b + countb (fun r => is_special r && negb (ry r)) l) in
      Ok (mkCW (fst s) (set_nth i b' (cobjs w)))
  end.

(** bsketch.py:398-404: one item of the other's dict *)
Definition c_merge1 (s : list (Z * Z) * list (Z * nat)) (kv : Z * nat) : list (Z * Z) * list (Z * nat) :=
  match lookup (fst kv) (snd s) with
  | Some c =>
      let a := nth c (fst s) (0, 0) in let v := nth (snd kv) (fst s) (0, 0) in
      (set_nth c (fst a + fst v, snd a + snd v) (fst s), snd s)
  | None => (fst s, snd s ++ [kv])
  end.
(** bsketch.py:389-410 *)
Definition c_merge (w : cworld) (i j : nat) : res cworld :=
  match nth_error (cobjs w) i, nth_error (cobjs w) j with
  | Some b, Some o =>
      let s := fold_left c_merge1 (cells o) (cheap w, cells b) in
      let b' := mkC (snd s) (cme b + cme o) (cmne b + cmne o) (cse b + cse o) (csne b + csne o) in
      Ok (mkCW (fst s) (set_nth i b' (cobjs w)))
  | _, _ => Err OtherError
  end.

(** the dict of an object: category -> (nonevent, event) *)
Definition c_table (w : cworld) (i : nat) : option (list (Z * (Z * Z))) :=
  match nth_error (cobjs w) i with
  | Some b => Some (map (fun kv => (fst kv, nth (snd kv) (cheap w) (0, 0))) (cells b))
  | None => None
  end.
(** bsketch.py:426-448 *)
Definition c_n_event (w : cworld) (i : nat) : option Z :=
  match nth_error (cobjs w) i, c_table w i with
  | Some b, Some t => Some (zsum (map (fun kv => snd (snd kv)) t) + cme b + cse b)
  | _, _ => None
  end.
Definition c_n_nonevent (w : cworld) (i : nat) : option Z :=
  match nth_error (cobjs w) i, c_table w i with
  | Some b, Some t => Some (zsum (map (fun kv => fst (snd kv)) t) + cmne b + csne b)
  | _, _ => None
  end.

(** hmtx and loca: src/tables/hmtx.rs, src/tables/loca.rs *)
From Verif.Model Require Import MBase.

(** hmtx.rs:11-18 *)
Record metric := mk_metric { m_adv : Z; m_lsb : Z }.
Definition ser_metric (m : metric) : list Z := ser_u16 (m_adv m) ++ ser_i16 (m_lsb m).
Definition de_metric : parser metric :=
  a <-- de_u16 ;; l <-- de_i16 ;; pret (mk_metric a l).

(** hmtx.rs:35-41: the while loop, from [end_index] downwards.  Indexing is
    always in range; [nth] with a default stands for it. *)
Fixpoint end_index_loop (ms : list metric) (e : nat) : nat :=
  match e with
  | O => O
  | S e' =>
      if m_adv (nth e' ms (mk_metric 0 0)) =? m_adv (nth e ms (mk_metric 0 0))
      then end_index_loop ms e' else e
  end.

(** hmtx.rs:44-50 *)
Fixpoint ser_metrics_from (i e : nat) (ms : list metric) : list Z :=
  match ms with
  | [] => []
  | m :: ms' =>
      (if (i <=? e)%nat then ser_metric m else ser_i16 (m_lsb m)) ++ ser_metrics_from (S i) e ms'
  end.

(** hmtx.rs:31-53 *)
Definition hmtx_to_bytes (ms : list metric) : list Z * Z :=
  match ms with
  | [] => ([], 0)
  | _ =>
      let e := end_index_loop ms (length ms - 1) in
      (ser_metrics_from 0 e ms, u16 (Z.of_nat (e + 1)))
  end.

(** [iter().take_while(f).count()] *)
Fixpoint count_while {A} (f : A -> bool) (l : list A) : nat :=
  match l with [] => 0 | x :: l' => if f x then S (count_while f l') else 0 end%nat.

(** hmtx.rs:56-71: [rev().skip(1).take_while(..).count()]; the conversion to u16
    is a [try_into().unwrap()]. *)
Definition number_of_hmetrics (ms : list metric) : res Z :=
  match rev ms with
  | [] => Ok 0
  | lastm :: before =>
      let dupes := count_while (fun m => m_adv m =? m_adv lastm) before in
      unwrap (try_u 16 (Z.of_nat (length ms - dupes)))
  end.

(** hmtx.rs:86-110.  Reading the trailing Vec never fails, so the [expect] is
    always reached. *)
Definition de_hmtx (n : Z) : parser (list metric) :=
  ms <-- de_counted de_metric (Z.to_nat n) ;;
  others <-- de_vec de_i16 ;;
  match rev ms with
  | [] => ppanic
  | lastm :: _ => pret (ms ++ map (fun x => mk_metric (m_adv lastm) x) others)
  end.

(** loca.rs:37-45: [windows(2)] *)
Fixpoint loca_windows (l : list Z) : list (option Z) :=
  match l with
  | a :: ((b :: _) as l') => (if a =? b then None else Some a) :: loca_windows l'
  | _ => []
  end.
(** loca.rs:20-47 *)
Definition de_loca (is32 : bool) : parser (list (option Z)) :=
  raw <-- (if is32 then de_vec de_u32
           else (x <-- de_vec de_u16 ;; pret (map (fun v => v * 2) x))) ;;
  pret (loca_windows raw).

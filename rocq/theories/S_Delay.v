(** * S_Delay: vocabulary for regulated pipelines without their regulation *)
From Coq Require Import Ascii String List Bool Arith.
From Verif Require Import M_Prog M_Motion M_Regulator M_Buffer M_Waiter S_Trace S_World S_Network S_Net M_Start S_Watch.
Import ListNotations.

(** The channels by which regulators are told to pause and buffers tell their sizes; what is done with them. *)
Definition control_chan (c : chan) : bool := match c with CCtl _ | CSize _ => true | _ => false end.
Definition control_eff (e : eff) : bool := match on_chan e with Some c => control_chan c | None => false end.
(** A run without what is done with them and without the controllers. *)
Definition data_part (net : list comp) (l : list nevent) : list nevent := filter (fun x => (fst x / 4 <? length net) && negb (control_eff (fst (snd x)))) l.

(** Buffer [k] cannot tell its size, for its controller [m] has not read the ones before; and the controller cannot pause or resume its regulator, for
    the regulator has not yet heard what it was told before. *)
Definition choked (net : list comp) (cs : list capture) (l : list nevent) (w : world) (k m : nat) (cp : capture) : Prop :=
  exists b u mi mo s, nth_error net k = Some (NBuffer b u mi mo) /\ bf_monitor b = Some s /\ nth_error cs m = Some cp /\ In s (cp_monitors cp) /\
    cs_closed (w (CSize s)) = false /\ length (cs_queue (w (CSize s))) = bf_stdout_size b /\
    exec (controller cp) (controller_of net m l) (At (ESend (CCtl (rc_control (cp_control cp))) VUnit)) /\
    cs_closed (w (CCtl (rc_control (cp_control cp)))) = false /\ length (cs_queue (w (CCtl (rc_control (cp_control cp))))) = 1.
(** All have done what they had to do, the controllers included. *)
Definition everybody_succeeded (net : list comp) (cs : list capture) (ocs : nat -> S_Net.outcome) : Prop := forall k, k < length net + length cs -> exists n, ocs k = Ended (Ok n).

(** The nets of a QSPICE schematic: C187, C188, C189 (spicelib/editor/qsch_editor.py). *)
From Coq Require Import String Ascii List Bool Arith ZArith Lia.
From Verif Require Import PyStr EngModel StepsModel Regex ParModel QTagModel QTagProofs QEdModel QNetModel QNetSpec QNetProofs QNetProofs2.
Import ListNotations.
Local Open Scope string_scope. Local Open Scope nat_scope. Local Open Scope list_scope.

(** C187: each pin of each component gets the name of the label at its place, or else of the wire that ends there (GND is node 0); where
    nothing is drawn, the name depends on the place alone, so that pins that touch are connected. *)
Theorem C187_nodes : forall at_place t N, component_nets at_place t = Some N -> exists labels wires comps f,
  drawn at_place t labels wires comps /\ map fst N = refs comps /\ Forall2 (nodes_ok labels wires f) (pins comps) (map snd N).
Proof.
  intros pl t N H. destruct (nets_read pl t N H) as (L & W & C & D & R & E). destruct (nets_spec L W (pins C) (highest (map snd W)) (proj1 (highest_max (map snd W) 0%Z))) as (f & A & _).
  exists L, W, C, f. split; [exact D|]. split; [exact R|]. rewrite E. exact A.
Qed.
Print Assumptions C187_nodes.

(** C188: ... and it is a name of that place only: neither another place where nothing is drawn has it, nor any wire, nor any label that
    does not look like a numbered net (names of wires and labels that begin with the yen sign aside). *)
Theorem C188_open_pins_stay_apart : forall at_place t N, component_nets at_place t = Some N -> exists labels wires comps f,
  drawn at_place t labels wires comps /\ Forall2 (nodes_ok labels wires f) (pins comps) (map snd N) /\
  (forall p q, open_place labels wires (pins comps) p -> open_place labels wires (pins comps) q -> f p = f q -> p = q) /\
  (forall p a b n, open_place labels wires (pins comps) p -> In (a, b, n) wires -> hd_error n <> Some unused -> f p <> node n) /\
  (forall p a n, open_place labels wires (pins comps) p -> In (a, n) labels -> hd_error n <> Some unused -> ~ numbered n -> f p <> node n).
Proof.
  intros pl t N H. destruct (nets_read pl t N H) as (L & W & C & D & R & E). destruct (nets_spec L W (pins C) (highest (map snd W)) (proj1 (highest_max (map snd W) 0%Z))) as (f & A & B & F).
  exists L, W, C, f. split; [exact D|]. split; [rewrite E; exact A|]. split; [exact B|].
  assert (Y : forall j n, hd_error n <> Some unused -> YEN :: dec j <> node n).
  { intros j n Hn K. unfold node in K. destruct (str_eqb n (s2l "GND")); [discriminate|]. rewrite <- K in Hn. apply Hn. reflexivity. }
  split.
  - intros p a b n O I Hn. destruct (F p O) as [(k & -> & K)|(j & ->)]; [eapply fresh_not; [exact K|exact I]|apply Y; exact Hn].
  - intros p a n O I Hn NN. destruct (F p O) as [(k & -> & K)|(j & ->)]; [|apply Y; exact Hn]. intros G. unfold node in G. destruct (str_eqb n (s2l "GND")); [discriminate|].
    apply NN. pose proof (highest_max (map snd W) 0%Z) as (HM & _). cbv zeta in HM. pose proof (net_name_number k) as NK. unfold highest in K. rewrite G in NK. specialize (NK ltac:(lia)). unfold net_number in NK. destruct n as [|c r]; [discriminate|].
    destruct (aeqb c "N") eqn:EC; [|discriminate]. apply aeqb_eq in EC. subst c. exists r, k. split; [reflexivity|exact NK].
Qed.
Print Assumptions C188_open_pins_stay_apart.

(** A resistor with two pins, as QSPICE writes it. *)
Definition tok (s : string) : str := s2l s.
Definition quo (s : string) : str := DQ :: s2l s ++ [DQ].
Definition ex_pin (xy name : string) : tag := Tag [tok "pin"; tok xy; tok "(0,0)"; tok "1"; tok "0"; tok "0"; tok "0x0"; tok "-1"; quo name] [].
Definition ex_txt (s : string) : tag := Tag [tok "text"; tok "(100,150)"; tok "1"; tok "7"; tok "0"; tok "0x1000000"; tok "-1"; tok "-1"; quo s] [].
Definition ex_res (xy ref v : string) : tag :=
  Tag [tok "component"; tok xy; tok "0"; tok "0"] [Tag [tok "symbol"; tok "R"] [Tag [tok "type:"; tok "R"] []; ex_txt ref; ex_txt v; ex_pin "(0,200)" "1"; ex_pin "(0,-200)" "2"]].
Definition ex_net (xy n : string) : tag := Tag [tok "net"; tok xy; tok "1"; tok "13"; tok "0"; quo n] [].
Definition ex_wire (a b n : string) : tag := Tag [tok "wire"; tok a; tok b; quo n] [].
Definition upright (p : Z * Z) (o : Z) (q : Z * Z) : option (Z * Z) := Some (fst p + fst q, snd p + snd q)%Z.
Example C187_nonvacuous :
  let t := Tag [tok "schematic"] [ex_wire "(0,200)" "(500,200)" "N01"; ex_net "(500,200)" "in"; ex_net "(0,-600)" "GND"; ex_res "(0,0)" "R1" "1k"; ex_res "(0,-400)" "R2" "2k"; ex_res "(500,0)" "R3" "3k"] in
  component_nets upright t = Some [(s2l "R1", [s2l "N01"; s2l "N02"]); (s2l "R2", [s2l "N02"; s2l "0"]); (s2l "R3", [s2l "in"; s2l "N03"])].
Proof. vm_compute. reflexivity. Qed.

(** C189: a pin where nothing is drawn is connected to nothing.  The new name can be that of a label that has no wire: here the lower
    pin of R1, under which nothing is drawn, and the upper pin of R2, at the label N01, get the same node. *)
Theorem C189_label_without_wire_refuted :
  let t := Tag [tok "schematic"] [ex_net "(0,200)" "a"; ex_net "(900,200)" "N01"; ex_net "(900,-200)" "b"; ex_res "(0,0)" "R1" "1k"; ex_res "(900,0)" "R2" "1k"] in
  component_nets upright t = Some [(s2l "R1", [s2l "a"; s2l "N01"]); (s2l "R2", [s2l "N01"; s2l "b"])].
Proof. vm_compute. reflexivity. Qed.
Print Assumptions C189_label_without_wire_refuted.

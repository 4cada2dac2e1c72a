(** SHA-256, SHA-512 (FIPS 180-4) and HMAC-SHA256 (RFC 2104), as in crypto/sha256,
    crypto/sha512 and crypto/hmac. *)
From Verif Require Import M_Base M_Crypto.
Local Open Scope N_scope.

(** The two functions differ in word size, rotations and constants only. *)
Record sha_params := mkSha {
  sh_bits : N;            (* word size: 32 or 64 *)
  sh_mask : N;            (* 2^bits - 1 *)
  sh_S0 : N * N * N;      (* Sigma_0: three rotations *)
  sh_S1 : N * N * N;
  sh_s0 : N * N * N;      (* sigma_0: two rotations and a shift *)
  sh_s1 : N * N * N;
  sh_k : list N;          (* round constants *)
  sh_iv : list N          (* initial hash value *)
}.
Section Sha.
Variable p : sha_params.
Definition wd (x : N) : N := N.land x (sh_mask p).
Definition rotr (n x : N) : N := N.lor (N.shiftr x n) (wd (N.shiftl x (sh_bits p - n))).
Definition big_sigma (r : N * N * N) (x : N) : N := let '(a, b, c) := r in N.lxor (rotr a x) (N.lxor (rotr b x) (rotr c x)).
Definition small_sigma (r : N * N * N) (x : N) : N := let '(a, b, c) := r in N.lxor (rotr a x) (N.lxor (rotr b x) (N.shiftr x c)).
Definition ch (x y z : N) : N := N.lxor (N.land x y) (N.land (N.lxor x (sh_mask p)) z).
Definition maj (x y z : N) : N := N.lxor (N.land x y) (N.lxor (N.land x z) (N.land y z)).
(** Sections 6.2.2 and 6.4.2: the schedule (the last sixteen words, oldest first) runs along
    with the rounds. *)
Fixpoint sha_rounds (ks : list N) (w : list N) (s : list N) : list N :=
  match ks with
  | [] => s
  | k :: ks' =>
      match s, w with
      | [a; b; c; d; e; f; g; h], w0 :: w1 :: rest =>
          let t1 := h + big_sigma (sh_S1 p) e + ch e f g + k + w0 in
          let t2 := big_sigma (sh_S0 p) a + maj a b c in
          let wn := wd (small_sigma (sh_s1 p) (nth 12 rest 0) + nth 7 rest 0 + small_sigma (sh_s0 p) w1 + w0) in
          sha_rounds ks' (w1 :: rest ++ [wn]) [wd (t1 + t2); a; b; c; wd (d + t1); e; f; g]
      | _, _ => s
      end
  end.
Fixpoint words_of (n bpw : nat) (b : bytes) : list N :=
  match n with O => [] | S m => le2n (rev (firstn bpw b)) :: words_of m bpw (skipn bpw b) end.
Fixpoint add_state (s t : list N) : list N :=
  match s, t with x :: s', y :: t' => wd (x + y) :: add_state s' t' | _, _ => [] end.
Definition wbytes : nat := N.to_nat (sh_bits p / 8).
Fixpoint sha_blocks (n : nat) (b : bytes) (s : list N) : list N :=
  match n with
  | O => s
  | S m => sha_blocks m (skipn (16 * wbytes) b) (add_state s (sha_rounds (sh_k p) (words_of 16 wbytes b) s))
  end.
(** Section 5.1: the bit 1, zeroes, and the length in bits as a double word. *)
Definition sha_pad (m : bytes) : bytes :=
  let bl := (16 * wbytes)%nat in
  let l := List.length m in
  let z := ((bl - (l + 1 + 2 * wbytes) mod bl) mod bl)%nat in
  m ++ Byte.x80 :: repeat Byte.x00 z ++ rev (n2le (2 * wbytes) (8 * N.of_nat l)).
Definition sha (m : bytes) : bytes :=
  let b := sha_pad m in
  let s := sha_blocks (List.length b / (16 * wbytes)) b (sh_iv p) in
  List.concat (map (fun x => rev (n2le wbytes x)) s).
End Sha.

Definition p256 : sha_params := mkSha 32 4294967295 (2, 13, 22) (6, 11, 25) (7, 18, 3) (17, 19, 10)
  [1116352408; 1899447441; 3049323471; 3921009573; 961987163; 1508970993; 2453635748; 2870763221; 3624381080; 310598401; 607225278; 1426881987; 1925078388; 2162078206; 2614888103; 3248222580; 3835390401; 4022224774; 264347078; 604807628; 770255983; 1249150122; 1555081692; 1996064986; 2554220882; 2821834349; 2952996808; 3210313671; 3336571891; 3584528711; 113926993; 338241895; 666307205; 773529912; 1294757372; 1396182291; 1695183700; 1986661051; 2177026350; 2456956037; 2730485921; 2820302411; 3259730800; 3345764771; 3516065817; 3600352804; 4094571909; 275423344; 430227734; 506948616; 659060556; 883997877; 958139571; 1322822218; 1537002063; 1747873779; 1955562222; 2024104815; 2227730452; 2361852424; 2428436474; 2756734187; 3204031479; 3329325298]
  [1779033703; 3144134277; 1013904242; 2773480762; 1359893119; 2600822924; 528734635; 1541459225].
Definition p512 : sha_params := mkSha 64 18446744073709551615 (28, 34, 39) (14, 18, 41) (1, 8, 7) (19, 61, 6)
  [4794697086780616226; 8158064640168781261; 13096744586834688815; 16840607885511220156; 4131703408338449720; 6480981068601479193; 10538285296894168987; 12329834152419229976; 15566598209576043074; 1334009975649890238; 2608012711638119052; 6128411473006802146; 8268148722764581231; 9286055187155687089; 11230858885718282805; 13951009754708518548; 16472876342353939154; 17275323862435702243; 1135362057144423861; 2597628984639134821; 3308224258029322869; 5365058923640841347; 6679025012923562964; 8573033837759648693; 10970295158949994411; 12119686244451234320; 12683024718118986047; 13788192230050041572; 14330467153632333762; 15395433587784984357; 489312712824947311; 1452737877330783856; 2861767655752347644; 3322285676063803686; 5560940570517711597; 5996557281743188959; 7280758554555802590; 8532644243296465576; 9350256976987008742; 10552545826968843579; 11727347734174303076; 12113106623233404929; 14000437183269869457; 14369950271660146224; 15101387698204529176; 15463397548674623760; 17586052441742319658; 1182934255886127544; 1847814050463011016; 2177327727835720531; 2830643537854262169; 3796741975233480872; 4115178125766777443; 5681478168544905931; 6601373596472566643; 7507060721942968483; 8399075790359081724; 8693463985226723168; 9568029438360202098; 10144078919501101548; 10430055236837252648; 11840083180663258601; 13761210420658862357; 14299343276471374635; 14566680578165727644; 15097957966210449927; 16922976911328602910; 17689382322260857208; 500013540394364858; 748580250866718886; 1242879168328830382; 1977374033974150939; 2944078676154940804; 3659926193048069267; 4368137639120453308; 4836135668995329356; 5532061633213252278; 6448918945643986474; 6902733635092675308; 7801388544844847127]
  [7640891576956012808; 13503953896175478587; 4354685564936845355; 11912009170470909681; 5840696475078001361; 11170449401992604703; 2270897969802886507; 6620516959819538809].
Definition real_sha256 (m : bytes) : bytes := sha p256 m.
Definition real_sha512 (m : bytes) : bytes := sha p512 m.
(** RFC 2104 with the 64-byte block of SHA-256; crypto/hmac New hashes longer keys. *)
Definition real_hmac (k m : bytes) : bytes :=
  let k0 := if Nat.ltb 64 (List.length k) then real_sha256 k else k in
  let k1 := k0 ++ repeat Byte.x00 (64 - List.length k0) in
  let pad (x : byte) := map (bxor x) k1 in
  real_sha256 (pad Byte.x5c ++ real_sha256 (pad Byte.x36 ++ m)).


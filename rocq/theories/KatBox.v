(** The NaCl test vector for crypto_secretbox (tests/secretbox.c of the NaCl distribution), run on
    the specification and on the model.  Build-time tests, not theorems. *)
From Verif Require Import Base EdSpec BoxSpec TweetBox.
Definition kat_box_key : list Z := [27;39;85;100;115;233;133;212;98;205;81;25;122;154;70;199;96;9;84;158;172;100;116;242;6;196;238;8;68;246;131;137].
Definition kat_box_nonce : list Z := [105;105;110;233;85;182;43;115;205;98;189;168;117;252;115;214;130;25;224;3;107;122;11;55].
Definition kat_box_msg : list Z := [190;7;95;197;60;129;242;213;207;20;19;22;235;235;12;123;82;40;197;42;76;98;203;212;75;102;132;155;100;36;79;252;229;236;186;175;51;189;117;26;26;199;40;212;94;108;97;41;108;220;60;1;35;53;97;244;29;182;108;206;49;74;219;49;14;59;232;37;12;70;240;109;206;234;58;127;161;52;128;87;226;246;85;106;214;177;49;138;2;74;131;143;33;175;31;222;4;137;119;235;72;245;159;253;73;36;202;28;96;144;46;82;240;160;137;188;118;137;112;64;224;130;249;55;118;56;72;100;94;7;5].
Definition kat_box_out : list Z := [243;255;199;112;63;148;0;229;42;125;251;75;61;51;5;217;142;153;59;159;72;104;18;115;194;150;80;186;50;252;118;206;72;51;46;167;22;77;150;164;71;111;184;197;49;161;24;106;192;223;193;124;152;220;232;123;77;167;240;17;236;72;201;114;113;210;194;15;155;146;143;226;39;13;111;184;99;213;23;56;180;142;238;227;20;167;204;138;185;50;22;69;72;229;38;174;144;34;67;104;81;122;207;234;189;107;179;115;43;192;233;218;153;131;43;97;202;1;182;222;86;36;74;158;136;213;249;179;121;115;246;34;164;61;20;166;89;155;31;101;76;180;90;116;227;85;165].
Ltac expect_true b := let r := eval vm_compute in b in lazymatch r with true => idtac end.
Fixpoint leqb (a b : list Z) : bool := match a, b with [], [] => true | x :: a, y :: b => (x =? y) && leqb a b | _, _ => false end.
Goal True. expect_true (let ct := box_cipher kat_box_key kat_box_nonce kat_box_msg in leqb (box_tag kat_box_key kat_box_nonce ct ++ ct) kat_box_out). exact I. Qed.
Goal True. expect_true (forallb (fun w => match crypto_secretbox w (zeros 163) (zeros 32 ++ kat_box_msg) 163 kat_box_nonce kat_box_key with
  Ret (0, c) => leqb c (zeros 16 ++ kat_box_out) | _ => false end) [32; 64]). exact I. Qed.
Goal True. expect_true (forallb (fun w => match crypto_secretbox_open w (zeros 163) (zeros 16 ++ kat_box_out) 163 kat_box_nonce kat_box_key with
  Ret (0, c) => leqb c (zeros 32 ++ kat_box_msg) | _ => false end) [32; 64]). exact I. Qed.

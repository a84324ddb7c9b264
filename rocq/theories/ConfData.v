(** * ConfData: the matrices of the unit tests of distancematrix/tests/consumer, in hundredths *)
From Verif Require Import Np Mat Inst.
Open Scope Z_scope.

(** All test classes use the same 10x15 matrix; test_multidimensional_matrix_profile_lr.py has two more of them *)
Definition dm_1 : mat Z :=
  [[867; 110; 177; 126; 191; 429; 632; 424; 464; 506; 641; 407; 467; 932; 509];
   [433; 499; 14; 279; 210; 626; 940; 414; 553; 426; 821; 591; 683; 926; 619];
   [16; 905; 135; 478; 701; 436; 524; 881; 790; 584; 890; 788; 337; 470; 694];
   [94; 870; 387; 629; 32; 179; 580; 261; 143; 632; 162; 20; 228; 711; 215];
   [990; 451; 211; 283; 552; 855; 690; 24; 158; 426; 875; 371; 993; 833; 38];
   [730; 584; 963; 195; 376; 361; 942; 556; 509; 707; 190; 478; 106; 69; 367];
   [217; 837; 399; 428; 437; 286; 861; 339; 837; 695; 657; 179; 740; 441; 764];
   [626; 29; 644; 884; 124; 252; 625; 307; 555; 319; 816; 532; 901; 39; 900];
   [467; 888; 305; 306; 236; 834; 491; 546; 925; 978; 3; 564; 510; 358; 692];
   [101; 91; 628; 779; 68; 550; 672; 511; 80; 930; 977; 471; 326; 729; 626]].
Definition dm_2 : mat Z :=
  [[589; 338; 254; 361; 617; 390; 341; 294; 502; 324; 65; 429; 793; 839; 34];
   [907; 632; 913; 22; 660; 955; 296; 694; 412; 406; 64; 55; 609; 47; 239];
   [653; 98; 208; 182; 391; 691; 90; 913; 449; 740; 167; 570; 304; 166; 826];
   [966; 553; 981; 896; 884; 223; 542; 641; 219; 869; 841; 963; 626; 277; 688];
   [568; 147; 330; 151; 97; 282; 685; 101; 86; 832; 83; 552; 461; 595; 956];
   [563; 517; 504; 277; 322; 844; 105; 206; 469; 16; 129; 202; 282; 116; 746];
   [439; 987; 219; 636; 688; 544; 718; 16; 662; 188; 646; 727; 759; 613; 534];
   [496; 846; 26; 701; 936; 61; 821; 182; 981; 128; 341; 320; 140; 820; 95];
   [636; 440; 743; 741; 858; 295; 504; 548; 133; 779; 153; 730; 202; 920; 319];
   [581; 585; 230; 509; 957; 808; 275; 299; 270; 514; 29; 795; 990; 971; 584]].
Definition dm_3 : mat Z :=
  [[793; 35; 102; 119; 696; 455; 185; 70; 680; 849; 54; 547; 757; 303; 593];
   [284; 946; 919; 449; 42; 226; 795; 436; 118; 994; 737; 488; 804; 601; 126];
   [273; 403; 250; 990; 351; 953; 103; 201; 71; 309; 124; 197; 478; 869; 420];
   [345; 446; 19; 54; 521; 966; 228; 584; 980; 972; 616; 517; 51; 807; 998];
   [582; 566; 2; 228; 850; 6; 598; 191; 369; 98; 710; 513; 622; 320; 105];
   [471; 263; 47; 670; 399; 536; 319; 350; 679; 785; 638; 226; 600; 531; 669];
   [967; 839; 769; 963; 180; 740; 53; 341; 418; 506; 633; 879; 418; 556; 418];
   [834; 847; 903; 966; 29; 672; 932; 56; 208; 674; 667; 430; 874; 859; 773];
   [383; 572; 478; 977; 838; 696; 90; 501; 955; 226; 310; 378; 283; 321; 170];
   [141; 779; 891; 13; 494; 935; 813; 478; 15; 476; 210; 792; 854; 219; 271]].
(** test_contextual_matrix_profile.py, TestStreamingContextualMatrixProfile *)
Definition dm_ctx : mat Z :=
  [[920; 460; 50; 0; 970; 840; 880; 720];
   [840; 330; 380; 620; 230; 730; 100; 970];
   [720; 310; 610; 320; 800; 590; 270; 810];
   [530; 730; 580; 900; 260; 100; 290; 880];
   [890; 480; 640; 670; 210; 640; 120; 520];
   [420; 810; 230; 440; 340; 660; 150; 420];
   [170; 880; 120; 40; 370; 930; 440; 370];
   [160; 780; 400; 890; 10; 750; 250; 800]].

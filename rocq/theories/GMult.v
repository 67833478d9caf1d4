(** * Verified multiples of G (proof only; slopes and points are generated data) *)
From Coq Require Import ZArith List Bool.
From Verif Require Import Spec CurveZ CurveGroup FastMul.
Import ListNotations.
Open Scope Z_scope.

Lemma G_on_curve : on_curve G.
Proof. apply oncb_ok. vm_compute. reflexivity. Qed.

Definition g_slopes : list Z :=
  [0xcb35b28428101a303eb9d1235992ac63f58857c2f631ee6936d3aebbeddcd1b1;
   0x6ad2cb95963c033328d4857d4f8711deff557dd9faaa673b400442833f0efb64;
   0x9693023fb325cc6c7bc993eb684358ea623d5feea8ff351df662beabd0efdc6d;
   0xbc380350880ab969e653d334691ca8c2da83b2acde59e7439ed92d96a9654a07;
   0xb68c9cb56c4f0fd3279f2dec6acae3ffbacfb8384548d24892d676cd6beacbf5;
   0x57aaae4151a198790e40eb37fe0dad5ed4d4581b1a82c40124b58ac767ed1ec4;
   0x875978642d00b859133774fec1878f9e7623f6df9c734f7ed297e920a77b4406;
   0xf0d3817330010db820c7710c8ee17a157984f4bfd3bafbd4a49079efd7754990;
   0xed7816fe6ca3e42058b150c9eeac31ef8a6bda7ee9e51a0ec33e09f96afc74bc;
   0x62f219d148d24eff34fe56735390098e29b6a2190daa3dc0fbd1d33b92531a49;
   0xda8eabc70379e66ae8e505f49deb2e1b4906022def4c45ec320e33aed7091903;
   0x6c49014b33417076abaadc7958f95908e93dd2886468bd7d27d61cef7c1fdfdd;
   0xca43b3ab114e7c697fee873576d7b89f909e0592f9e805e00246c31200fb967b;
   0x1b5d9cdfbd96d7eaf397653b120ed6cb0f4bd05bf004f79c2a9fd0bcdf4929bc;
   0x6fedf4339b46436d0db4e1864076fe618c51a754e1c0ed5708b889c5733613e;
   0xa377ffff0b36d0535197bead9992fee7698334fa5bfc270f64d511cc9ab7c03a;
   0xbe610814de113647213fff8fc6378b31333e2bac4ac437ff9a702a6734563c9;
   0x92ebb512788e5c3c7a3baf1feaf8281104d50976aef98bbac62a97be2d8b7a7b;
   0x9b0f855eb9be64f095aa255167f0f0baf01b2cd3cc72ef8f1444747071666278;
   0xc95c70effee378ee51d4695a7e30804db90a8fdfcca618c180cec3ec5c83b500;
   0xec7e64a924b93bbe0b71cb15729ff63848d6104ae7d55a16ed4a41d45b8fe684;
   0x4a97f998b50e69d9b7f9c654687b8490e7f4a168b22ee05f0491f67c5bcae6b4;
   0xc0b764bf04ae63359beb2b4fc6f722f47da0482483379a58ca50aff8c2ea4869;
   0xb9f84addcab19fb53a62e79564f6075b848477821df6d6c58668d8e9b2501575;
   0xc985b179caa5bee0ef6acefc42c0dec227b196c5dbd0953cc43c5868392e7cd3;
   0xa6d04e5b19577537db75701165cc1aa476cbdc92cb167d90af93b785d698742e;
   0x4479d94c2f98166b4c1d24655334f9bab459cb5a6c074f1e9bb5b9ea97b6a18b;
   0xbe5aafdeb2f0b1599d1b413e816d0ae93363953c3d97e4fd3afed1c367f9596d;
   0xa6a6f72a0273aa6f7b6276e647117f1c0e9f5561a551c6238ec167ba7ac03635;
   0x8dee3efccec9fbd528bcbdfc380d106f09ab41277d36c65ed6c4dc4784ea857a;
   0xdb3e8ec5d990ec59421e6569d96dcdaecb7f725432c5a4ddb78439afbfe5554f;
   0xf18fad968cb987adc7d7c35fc6ad8974a3fcf82a55e9400e7bf3015e6b558a5;
   0x82cd82212ae9dbf4101c8671a40de941c0bc39b23359c41063b171fe4cbf7c6a;
   0xc5ab93dae7b4d1d3c5edfe8bc49fa6ba5566b166494b830b6cf082231fe99f39;
   0xde12036f73e80356f7db91954e2ca46c56dcab93ec4efda7fa9e72b8b3a2b20a;
   0xeaaf7c28dae8dfa52783d0b7ef5ebc91aa999f58db631588e00a05856dbef4cd;
   0x27923dd35874b9d0c3e1b1930352c0c3b0d91412f38fa8c1341f5a73beb4f8b9;
   0xd8880a7ae61955a53b91ef1d5de7f4b9646afd475edbbc8974911329e12fbdcd;
   0x8676b3eae525414b100a173e847e521f75a5c46ae628b3858b1c1fbcbc59daf7;
   0xf53ade417a0d913b3b9e411781e6e8de0ff1a6b169ca912fe5495f51c90530d8;
   0x32f78aa8da44cbc85c1d785fb24f0e7f0da8ec5386523d436bb3a50d1e52fb8c;
   0x2c5edb78f874848d89ceb49fa59a1ff38ba3a6605f567ca67bb74a6e78c097d7;
   0xdebcd686b581f6645f94a93467d0ecdf9e4ad7edeedcfeed57d9d6364c78d427;
   0x81751b61f3b4ad7169d8ac62378adc14043339e3a60078fa2bf394c804c26e20;
   0xea6ec05c50822815af2653e43c1adabb3be24e602591c72373d731cc1a44a051;
   0xe60635d4ed2d254e05003b55d58bd309cce50b703f8dbf6d4700a65d85559a25;
   0x7471bc58c865f770a22bcb1e2465507731b3ad17d19c55c851a736531fefafae;
   0xc84b8bb00e0f4407e49fe1be00895dca6d817c8ce64cfebb5d67625411bde644;
   0xdfada4b2106cac4951ec538f3d828576d57426ebe0d870d5e091e5b044aa5639;
   0x51ee9a34eead0ad899a54439d004a42a2f3fa11be3c4773c1dc6457062e3572b;
   0x602c9992d00cc6030985312c38033bca60ce74f3a25777862a7288488389cdc1;
   0x2caed624594a3483ad98859bef75a97ed7cc509bd906bb2b23fbf9fbe4e5004f;
   0xff486a88ac95151d852a5270924d4ccf1fff7b676398e499d324893a4bbb576c;
   0x8309b9cd7caf364f8a4726b848e574837a1498176583cd38a99bbf35c27c0e01;
   0xc3a088da9a740fbef9a36dc94890489302dbf3a200c6aad18428714f41d62ef0;
   0x9a1bb41d1a00d1b60cc94b47fe3b071dd38189836c875b949a5bb1b3744d5622;
   0x738fd7bbbe9afd0e286fa67c1b3d9d1d4306cf1d91327714eb87d7e6678bcdb6;
   0x245df8c5a6ad254b4c4c56c0d969cacd2ea321b08b1ed4d55515f34d582f7420;
   0xb51b78655a4e5a25c8c18dd20190b5571b736e586729fe907b550841e1b6724f;
   0x2e95bd430cb40948c3e3069bb698efdada1d87ac3d902f2d55129e9cbdb660d4;
   0x61ff0b09e723c8829eb256b349701c992867da5babb9246b4e80f4a06a7739aa;
   0x3172c36f49857e7e10d1b5927bf54091d80521d6b2eb92a8998b92cbb2234de1;
   0xc3c8b71e8454afd4fe4ae23209d6947bbfdb44f29f3474cbf6e1de6bfd9974ad;
   0xc781a37bd88a0baa945a25dcbec891a96eab33936f3ae33b924c4ebb9ccc91e1;
   0x5e1c71fb55e898f6e64912dece2b8a3d031f1eaee2af6f37ebd48ca94c1a3624;
   0x5adeba52ee6ac0e141ffb884efa7a7d9a940b9950373647c8aaef60dd14e763c;
   0xa478dd7bfcb0fe45115c6952feba38f9de0842736b164666c083b48c9ac6cb1;
   0x104f2aa37e05be6add58d281a2334816593555f014ce643f702814ec1391f5a4;
   0xad98ae499f8b968dacfaf69097db01061deecdd4b8b7fe434720aaf6131a6fc1;
   0xe3b8c91ddd9155986dea06e85caade56b09b179572444c1c2007fd77d04d6f0;
   0x6d5074103e91fdcfa4597e9b5c32b822c19b5af92207eb477c72ec4f9dcccb6b;
   0xb0486abb58d31b2dc9704b8502170a38dc4139987db4802a1661a40d857824d;
   0xe6d9fa3e6518d4e9723dea425cf89cf627c6b2258bb185785b0f3d91b04e6115;
   0xd884b65bd5b8dfcbdda21a681b317b0bcbf4d101debc21a38ca7300520334d4c;
   0x9d1540c9467d3bf99ee5b77f3c9121f1a88e1886ce5c64aa196b85cf6815554e;
   0xc48405b3038c03bd744a8ed8a5527cb83e8f1929b392d0a6967cbd721bae0b;
   0xf9bd4b25fb8787ac97edb42b9bac8deb9ff7ef01b41f5d6575086f1012bf96ce;
   0x95b144bd0405b76f012f298ce4bf1355bccb8671d21cdb26d904bbbeb3860cda;
   0xcd97a7266946a362a966c2469bb3e45413110726a2c395c2bea221545461dbef;
   0xe53ce2c798d39bef6ff55175192d6b703f4df8f610db8e47bda11627318a4605;
   0x18b9cd189f45726e2c6dfdc2cce38866bc945ec92113621bfaa817ce723adf9e;
   0xbcba2313f29e1d97551bf61072f2a6f583d17ef9378ac65a6a5a28639887beb1;
   0xccb0c2d5a765fae0fa90950f0ed92a38ad56207a00bd4f3ea9da4b31dfc25815;
   0xdfedec6f42f70b127c80c91fa38ee129550274bde0c96a7286b93a0f6c39dfc0;
   0x24076fdb1fa11f74017e5c3696347308e32b3f0e740977d9c044061b43cc1ca4;
   0x38894d85c2951105037a5d11369af6d039f62d660aef1e5b13689d8a8da7b17a;
   0x43e3186271177bc3437dffd0f295e9a9b2a7a173698f8c15f747e07c7e8ff275;
   0xb52c04d03ee5d1a4b1d4065d2e74ed960cb2de26a95aa21abbc0df208ef24801;
   0xa25099814b5320e1032c789b522196ca8e997d9c4c7caf884c79019ad46985e4;
   0x722376042ae0f9d2ab08571a325abc3a4436037b5b82183ef03f4c040825c566;
   0xa108d01af8d3416aa2f0e358342876e2ba7343cd700f6c28a824e467637a1221;
   0xaa93ae9daa82037fbb9b9ac8d39248dd36602f49c2588d2617debf0c252844b5;
   0x1636e902f0379b679aafde9343d791a7ab89d449ce8432e3b716d55e3470094f;
   0x61d87a0cfe2e33fd3d7b20932d6ec316534b451b05017d55ebf66df97c650703;
   0x24454cfd40d319c9fe377ebae48788ea6718ae1dc023e42f98c46838dfdb2715;
   0x717534901dbb59ab006854c068a50dfdd20232fe591a31fbd7dda12262862069;
   0x41c5c1a77b62baa51b180e1dcbff6780ece0a093f5a78051c6de090fab67d58b;
   0xcc008c577437b3b458c9b836494bb2bc62d6e64da3f0842ef710401e85163577;
   0x9294b9f9f80b87f9d51ea42cdc54616c6c8cacf9b6a14ad9e9bee370d90df338;
   0x27b376e30f76ec47e5e68b16c3a2cf484262baa820f9d61937a65d963ba0a28f;
   0xf1bf5eae2a0c4c9ef23bb69797a3827927656b3d5c2e1dc0e927cc43f0db11ba;
   0x546acca7e813b1998650b06326ef6544d2d72aa88a3413c45c35c5c3ba5cef5e;
   0x631098678fdb228e7be3f87f83e86efe5e8cb7d78b2be931475be0b75e618be4;
   0x792c04e8f7afd1b9a401fb8523f74d5c81c76302b10a6726b0a0b54d60e62eac;
   0xa12d5e05dff013873b8147dae62e9e6caf91901e3e357c1cec3858f69f0d4b2;
   0x2a2f3623eafc2706805279368e2b1c5c2afa8d5e85e53d5ba7e9d48345cf88f4;
   0x292696c573b74a6cd56a72bbb1bcc0d621fb2ff611aec55bd728a03258fa9ac4;
   0xaa59b2dd302ea6d3ebf0bd86b52a675096448eaee3e2c37f59fe73a32ea2452c;
   0x9824e79ee39825411d7bf6454d5ed23a6453d1b81b9b3a889361ae2bb1a01db9;
   0x1410252b4cd150f805430da05be0fa84af1a95f3bda9041d49b5dac99bde7dbc;
   0xd835dfd81665457b77de5400f8e630b0f3fee3384b8a278f65ff35efbac3549d;
   0x31acb4e1b1cf7975d68309d78e4079a67ff7ca16b70a141bca36aa1e38f7816;
   0x9e134159fa7f342a7059c56115bfcbe4aee40bb38561a32f7d1cd882eb497297;
   0xf7f95ba71f70ffae38b8afe471517eb23276f67bb7e8587cbcc1c8f03fdd8edc;
   0x775399578055e555c62520e02bf03e8454a29230887ca4369e4c87b9bb0ba8cd;
   0x500a08279b3c953b7ea4c442af79ee4fc12bb93017e4727816b4374fcac245db;
   0x759f42169706492f4d893748465b0b891cf451657415eb8bad19754d88799bb8;
   0x9b2f8851451a0c4a32b655df99f323889b9f437a5ac499423c383f787a29e43e;
   0xfd694f82ce17714f7e6a833cfa028cf5206ab4c04bab17679f65e28f90487e1d;
   0x6d66f1633c0ea4e3be369e04bdcfc73efac3f92d72320932c55fd0197c48e44a;
   0x60fb0dd8cfb159a6cc7a0b308761f2bb17857246959617835ef54989090a211d;
   0x50018607e3d60e50bc5e7dd6ea0060dab9e5478b964170294f64677ef6f5adfd;
   0xcae60ba240a4434e4187587e5c8846b5fb61cb5eed6df31ef65e69275e8298dd;
   0x27fec578a9edadb2aa5328699c0a3cccb201d9e4c4c46c036041f20898797576;
   0xd4f0db18fed8a66a083b386445c250011b57923062480f793ccb65d82d6f2d6b;
   0x58ff873b75fe48d0de02ba7960e477f2b009a1fad79a0c13db1f838a68704f33;
   0x4a448861c49b177bf3d75a72ffbe403636a0189476ffa033360c12be26583b58;
   0x857ad2cd6b2921bd076754555a30fbaa46c691e4d20c90d6ea86468cd38da973;
   0xcfc72646669a22e13c4fa2f56147ca7fd7babf662697196e4fab511935abdd53].
(** the table as literals *)
Definition g_tab_lit : list point :=
  [(0x79be667ef9dcbbac55a06295ce870b07029bfcdb2dce28d959f2815b16f81798, 0x483ada7726a3c4655da4fbfc0e1108a8fd17b448a68554199c47d08ffb10d4b8);
   (0xc6047f9441ed7d6d3045406e95c07cd85c778e4b8cef3ca7abac09b95c709ee5, 0x1ae168fea63dc339a3c58419466ceaeef7f632653266d0e1236431a950cfe52a);
   (0xe493dbf1c10d80f3581e4904930b1404cc6c13900ee0758474fa94abe8c4cd13, 0x51ed993ea0d455b75642e2098ea51448d967ae33bfbdfe40cfe97bdc47739922);
   (0x2f01e5e15cca351daff3843fb70f3c2f0a1bdd05e5af888a67784ef3e10a2a01, 0x5c4da8a741539949293d082a132d13b4c2e213d6ba5b7617b5da2cb76cbde904);
   (0xe60fce93b59e9ec53011aabc21c23e97b2a31369b87a5ae9c44ee89e2a6dec0a, 0xf7e3507399e595929db99f34f57937101296891e44d23f0be1f32cce69616821);
   (0xd30199d74fb5a22d47b6e054e2f378cedacffcb89904a61d75d0dbd407143e65, 0x95038d9d0ae3d5c3b3d6dec9e98380651f760cc364ed819605b3ff1f24106ab9);
   (0xbf23c1542d16eab70b1051eaf832823cfc4c6f1dcdbafd81e37918e6f874ef8b, 0x5cb3866fc33003737ad928a0ba5392e4c522fc54811e2f784dc37efe66831d9f);
   (0x34ff3be4033f7a06696c3d09f7d1671cbcf55cd700535655647077456769a24e, 0x5d9d11623a236c553f6619d89832098c55df16c3e8f8b6818491067a73cc2f1a);
   (0x8282263212c609d9ea2a6e3e172de238d8c39cabd5ac1ca10646e23fd5f51508, 0x11f8a8098557dfe45e8256e830b60ace62d613ac2f7b17bed31b6eaff6e26caf);
   (0x465370b287a79ff3905a857a9cf918d50adbc968d9e159d0926e2c00ef34a24d, 0x35e531b38368c082a4af8bdafdeec2c1588e09b215d37a10a2f8fb20b33887f4);
   (0x241febb8e23cbd77d664a18f66ad6240aaec6ecdc813b088d5b901b2e285131f, 0x513378d9ff94f8d3d6c420bd13981df8cd50fd0fbd0cb5afabb3e66f2750026d);
   (0x5d1bdb4ea172fa79fce4cc2983d8f8d9fc318b85f423de0dedcb63069b920471, 0x2843826779379e2e794bb99438a2265679eb1e9996c56e7b70330666f7b83103);
   (0x175e159f728b865a72f99cc6c6fc846de0b93833fd2222ed73fce5b551e5b739, 0xd3506e0d9e3c79eba4ef97a51ff71f5eacb5955add24345c6efa6ffee9fed695);
   (0x423a013f03ff32d7a5ffbcc8e139c62130fdfeb5c6da121bce78049e46bc47d6, 0xb91ae00fe1e1d970a1179f7bbaf6b3c7720d8ec3524f009ed1236e6d8b548a34);
   (0x111d6a45ac1fb90508907a7abcd6877649df662f3b3e2741302df6f78416824a, 0x696911c478eaffbb90d48dbff065952f070008996daca4ca9a111d42108e9d0);
   (0x4a4a6dc97ac7c8b8ad795dbebcb9dcff7290b68a5ef74e56ab5edde01bced775, 0x529911b016631e72943ef9f739c0f4571de90cdb424742acb2bf8f68a78dd66d);
   (0x363d90d447b00c9c99ceac05b6262ee053441c7e55552ffe526bad8f83ff4640, 0x4e273adfc732221953b445397f3363145b9a89008199ecb62003c7f3bee9de9);
   (0x4c1b9866ed9a7e9b553973c6c93b02bf0b62fb012edfb59dd2712a5caf92c541, 0xc1f792d320be8a0f7fbcb753ce56e69cc652ead7e43eb1ad72c4f3fdc68fe020);
   (0xa4083877ba83b12b529a2f3c0780b54e3233edbc1a28f135e0c8f28cbeaaf3d1, 0x40e9f612feefbc79b8bf83d69361b3e22001e7576ed1ef90b12b534df0b254b9);
   (0xa804c641d28cc0b53a4e3e1a2f56c86f6e0d880a454203b98cd3db5a7940d33a, 0x95be83252b2fa6d03dec2842c16047e81af18ca89cf736a943ce95fa6d46967a);
   (0x8b4b5f165df3c2be8c6244b5b745638843e4a781a15bcd1b69f79a55dffdf80c, 0x4aad0a6f68d308b4b3fbd7813ab0da04f9e336546162ee56b3eff0c65fd4fd36);
   (0xed0c5ce4e13291718ce17c7ec83c611071af64ee417c997abb3f26714755e4be, 0x221a9fc7bc2345bdbf3dad7f5a7ea68049d93925763ddab163f9fa6ea07bf42f);
   (0xfaecb013c44ce694b3b15c3f83f1fae8e53254566e0552ced4b6e6c807cec8ab, 0xcc09b5e90e9ecb57fc2e02c6ec2fb13d9c32b286b85e2e2e8981dfd9ab155070);
   (0x9bb8a132dcad2f2c8731a0b37cbcafdb3b2dd824f23cd3e07f64eae9ad1b1f7, 0x945bb2b2afeee3b9b6f9dd284f863e850f54a840f4752d5364130627c3811c80);
   (0x723cbaa6e5db996d6bf771c00bd548c7b700dbffa6c0e77bcb6115925232fcda, 0x96e867b5595cc498a921137488824d6e2660a0653779494801dc069d9eb39f5f);
   (0x57efa786437b744d343d7dc45773a3c62d240a43079849071fd383d60ca030d5, 0xd712db0bd1b48518893627c928de03ec689b6d2ae5e9974ab07ab44274b02f9e);
   (0x264bbd436a28bc42a2df7e9cd5226cb91080577e327b012a7fafc7770c584dd5, 0xd87c6fa94ee093b4d4f75ce24c33be226a118243717b8d8de61227937704ab11);
   (0xa94c6524bd40d2bbdac85c056236a79da78bc61fd5bdec9d2bf26bd84b2438e8, 0xb5201fd992f96280fd79219505019e3a7e5d3c60a0e39b2bc2e2c8dbf18661f4);
   (0xeebfa4d493bebf98ba5feec812c2d3b50947961237a919839a533eca0e7dd7fa, 0x5d9a8ca3970ef0f269ee7edaf178089d9ae4cdc3a711f712ddfd4fdae1de8999);
   (0x381c4ad7a7a97bfda61c6031c118495fc4ea4bc08f6766d676bee90847d297fd, 0x936af53b238eeee48f3e5fa709915eccf0451032db939c0093ace3187d493fc5);
   (0xe1efb9cd05adc63bcce10831d9538c479cf1d05fefdd08b2448d70422ede454c, 0xecb4530d8af9be7b0154c1ffe477123464e3244a7a2d4c6ad9fd233a8913797);
   (0x5318f9b1a2697010c5ac235e9af475a8c7e5419f33d47b18d33feeb329eb99a4, 0xf44ccfeb4beda4195772d93aebb405e8a41f2b40d1e3ec652c726eeefe91f92d);
   (0x100f44da696e71672791d0a09b7bde459f1215a29b3c03bfefd7835b39a48db0, 0xcdd9e13192a00b772ec8f3300c090666b7ff4a18ff5195ac0fbd5cd62bc65a09);
   (0x8c0989f2ceb5c771a8415dff2b4c4199d8d9c8f9237d08084b05284f1e4df706, 0xfb4dbd044f432034ffd2172cb9dc966c60de6bf5156511aa736ac5a35d72fa98);
   (0xfb8f153c5e266704c4a481743262c0259c528539bc95bc1bb1e63c33dc47bffd, 0x6ca27a9dc5e0621816fa11d9b4bccd531dde1389ac542613090a45ddd949b095);
   (0xe747333fd75d51755a0cc9f0a728708465a02c587737a7b8b8fa1b8b4bb2629a, 0xf2affe0145070c114cc43603804c2581c88376aa6e1a969a9f8d961a6946f6d6);
   (0xe1031be262c7ed1b1dc9227a4a04c017a77f8d4464f3b3852c8acde6e534fd2d, 0x9d7061928940405e6bb6a4176597535af292dd419e1ced79a44f18f29456a00d);
   (0xf4b93f224c8089eab9f95dcd0f29b2c9028a6ac5de94d85784e27e36a95c8356, 0xa67a92ec062962dfb0e5f6a7a40eee90c37ef1344915609abd5861b9be001fd3);
   (0x9d1aca1fce55236b19622ea025b08b0d51e8512f97e696c20d62fe17b160e8a, 0x1153188f5101f0c63e56692ce0d8c27e6fe9e0ee9212b5e534e050c57ca04c44);
   (0xc66c59cc454c2b9e18a2ad793821cde7518b3a93bfc39562e97d7d0475ba7fc2, 0xd9592fe2bfb30fcfbea4f3ceaac10cb2f00a60ddb15955977ec3c69cf75f5956);
   (0xfeea6cae46d55b530ac2839f143bd7ec5cf8b266a41d6af52d5e688d9094696d, 0xe57c6b6c97dce1bab06e4e12bf3ecd5c981c8957cc41442d3155debf18090088);
   (0x4d000b621adb87e1c53261af9db2e179141ecae0b331a1870aa4040aee752b08, 0x6a0d5b8f18e0d255cb6d825582d972cccb7df5f119c7293a3e72851f48302cea);
   (0x71f570ca203da05dd6aa262114717128d657a0403e1f1b77f89962fd475c58ef, 0xeb42415b95dc880dd25557345bc95b8df2445d00c3363e7df8649a72d35d420e);
   (0xa2b7b3629f7bd253b7d282b5c21da01446b4821dc65e76516048b06043ff8359, 0x693038941695122d57a937a3f71e29c910d10835046f3835a2397fecfe86fec2);
   (0xda67a91d91049cdcb367be4be6ffca3cfeed657d808583de33fa978bc1ec6cb1, 0x9bacaa35481642bc41f463f7ec9780e5dec7adc508f740a17e9ea8e27a68be1d);
   (0x4dbacd365fa1ef587c0c0cfaaf00d8718bbd9f35ccea5a835ee3cc821fe741c9, 0x16c3540e8a51892e7fdcfd59e838299d0cc384a09fc0535f60be10f8338eb623);
   (0x13d1ffc481509beee68f17d8ff41c2590f4c85f15268605087eda8bab4e218da, 0x6008391fa991961dcecb9337b1b758bda4ad01206d5bd127e0db419ddb191c19);
   (0x219b4f9cef6c60007659c79c45b0533b3cc9d916ce29dbff133b40caa2e96db8, 0x24d9c605d959efeaf5a44180c0372a6e394f8ac53e90576527df01a78d3b6bc7);
   (0x53904faa0b334cdda6e000935ef22151ec08d0f7bb11069f57545ccc1a37b7c0, 0x5bc087d0bc80106d88c9eccac20d3c1c13999981e14434699dcb096b022771c8);
   (0x1a575af9d4146753cf991196316995d2a6ee7aaad0f85ad57cd0f1f38a47ca9, 0x3038f1cb8ab20dc3cc55fc52e1bb8698bdb93c5d9f4d7ea667c5df2e77ebcdb7);
   (0xf5f0e0437621d439ca71f5c1b76155d6d3a61a83d3c20c6ee309d755e315565b, 0x6b9f4e62be5a052bf62189160df7101aa5bf61bf3ed7e40a678430afdd2ecc82);
   (0x8f506f0b6c0b6e9a57a7f36d970ca4e347cbc92146227642cbe781d9f5362d33, 0x469f955d2afa61719530c5424f1c336848cf925d43bb8eaf30487d0c87fa243f);
   (0x8e7bcd0bd35983a7719cca7764ca906779b53a043a9b8bcaeff959f43ad86047, 0x10b7770b2a3da4b3940310420ca9514579e88e2e47fd68b3ea10047e8460372a);
   (0x33b35baa195e729dc350f319996950df3bc15b8d3d0389e777d2808bf13f0351, 0xa58a0185640abf87f9464036248d52bcaa6560efbc889b702bc503cccb8d7418);
   (0x374deeae22c93f955cb83ad2071f7e2256f6e109cad7bca6d71dc7b24414bb36, 0x171165b64fcd4f9916032c06f806f7293828d66300e543217875bea98daf734a);
   (0x2380c09c7f3aeae57c46e07395aeb0dc944dbaf2b62a9f0c5e8a64ad6ae7d616, 0x6f8e86193464956af1598aefd509b09a93af92148f8467560099be48161bbc1a);
   (0x385eed34c1cdff21e6d0818689b81bde71a7f4f18397e6690a841e1599c43862, 0x283bebc3e8ea23f56701de19e9ebf4576b304eec2086dc8cc0458fe5542e5453);
   (0xf6f622083daf54800456be134d5f67d147c82642befc1ce2dc83a27078f2827c, 0x1bcd4e817de73a0faf2c5715b367cee7e657ca7448321bf6d15b20b520aaa102);
   (0xfb26e5188f953de2bd70cb3c3d1fc255cd91c3ce7d8c6f369d893209715adcb6, 0xf3e128811012a34d58e846a719d0176916d2cb31b8b7ab5449dbca3b58ba68f3);
   (0x8991225911b9132d28f5c6bc763ceab7d18c37060e8bd1d7ed44db7560788c1e, 0xda8b4d987cc9ac9b27b8763559b136fa36969c84fdef9e11635c42228e8f0ef1);
   (0x6f9d9b803ecf191637c73a4413dfa180fddf84a5947fbc9c606ed86c3fac3a7, 0x7c80c68e603059ba69b8e2a30e45c4d47ea4dd2f5c281002d86890603a842160);
   (0xae86eeea252b411c1cdc36c284482939da1745e5a7e4da175c9d22744b7fd72d, 0x19e993c9707302f962ab0ace589ff0e98d9211551472f7282334cb7a4eee38bc);
   (0x2248c9f90bbfff55e61d2f8c56dc2c488718be75cf36f2ee7a1474267c169290, 0xfa0594692d21eed7a506bb55b435ba18e163750235da2be2369d8a12883ea257);
   (0xe11a6e16e05c44074ac11b48d94085d0a99f0877dd1c6f76fd0dac4bb50964e3, 0x87d6065b87a2d430e1ad5e2596f0af2417adc6e138318c6f767fbf8b0682bfc8);
   (0x3322d401243c4e2582a2147c104d6ecbf774d163db0f5e5313b7e0e742d0e6bd, 0x56e70797e9664ef5bfb019bc4ddaf9b72805f63ea2873af624f3a2e96c28b2a0);
   (0x8d26200250cebdae120ef31b04c80cd50d4cddc8eadbcf29fc696d32c0ade462, 0xebed3bb4715bf437d31f6f2dc3ee36ba1d4afb4e72678b3ad8e0a8b90f26470c);
   (0x1238c0766eaebea9ce4068a1f594d03b8ed4930d072d9c8b9164643e1516e633, 0x8a9db02dbb271359d6c979e2d1c3dc170946252dcc74022805cdb728c77b7805);
   (0x271d5b0770cb9c15e7b2ea758a6a11b9cddcd7282b0ec21619b01552788e7a66, 0x5d3aa45834e7f491e457d09949ac877fe2a065e3508a824e7a8d7258e03c9727);
   (0x85672c7d2de0b7da2bd1770d89665868741b3f9af7643397721d74d28134ab83, 0x7c481b9b5b43b2eb6374049bfa62c2e5e77f17fcc5298f44c8e3094f790313a6);
   (0x534ccf6b740f9ec036c1861215c8a61f3b89ea46df2e6d96998b90bc1f17fc25, 0xd5715cb09c8b2ddb462ae3dd32d543550ae3d277bfdd28ddd71c7f6ecfe86e76);
   (0xa91d1f5cee87b7f3081e142018f8aaed79020d47ecfbc8d2c7170923e8bee8b6, 0x748a324ee2df8ee15a7189c8dddad3b2f800569f628cb225003d16aa410644c1);
   (0xc15c8c23d90c8e35c1a214dde2d4383c0735ae45bef61f10aa1a1c255984cf74, 0x2ba954d828522235c8dc6f45e25fd7ba47bf772d50b015a2c4a48cd839ccb000);
   (0x948bf809b1988a46b06c9f1919413b10f9226c60f668832ffd959af60c82a0a, 0x53a562856dcb6646dc6b74c5d1c3418c6d4dff08c97cd2bed4cb7f88d8c8e589);
   (0x26952c7f372e59360d5ce4c66291f0b6ef16c1331e825e51396eb0457e8b000a, 0xf513ea4c5800a68862bc893d2d688422debe398f653d67318c3d401f05ef705a);
   (0xc62e58e6fc23c5bdbef2be8b131ff243f521196572d6b0e9f102588976134f96, 0x4397827d45b1a1678c3d676753141fc5bcfb853563731c3e82277ed4d14cf97e);
   (0x107460520eec5c741683329a716622b0b81c03200807de973686f8800b188cbb, 0xabe5d4c09a21598c35326b9b9cf54a11242e0d748dce3da601d7b6361f272124);
   (0x6260ce7f461801c34f067ce0f02873a8f1b0e44dfc69752accecd819f38fd8e8, 0xbc2da82b6fa5b571a7f09049776a1ef7ecd292238051c198c1a84e95b2b4ae17);
   (0x85d8da4748ad1a73dec8409be84f1a1316e65c5196aad27e0766746f3d477c2d, 0x58948b53665c6690586b536531efc7bc94b0a02033c4d5a62079816fc7d1dd70);
   (0x8e2a7166e7ec4b968c0892e9cc3ee3ee4d1e7e100fdc47f04850312d6c0b80d9, 0xeadb0ba9ae2cbe592cedd29b716a9d485297b688d706349a49c61f2ad6b29f50);
   (0x769bc75842bff58edc8366ecd78f8950ee4ab2e81359d90f9921fa3d2c4561be, 0x4bf817362fe783bac8dce4cef73f5d4741a177767b7873add5920bffb0d9685f);
   (0xe5037de0afc1d8d43d8348414bbf4103043ec8f575bfdc432953cc8d2037fa2d, 0x4571534baa94d3b5f9f98d09fb990bddbd5f5b03ec481f10e0e5dc841d755bda);
   (0xa5e00da467fd5494f40b6cf7d2d61b3ec3ab217c792a2ddb8c63c8c79e3d34ef, 0x98fe5f5e5608555421726fe99bf43d25b60dcfe790900acb855c5ce2f7adb4c);
   (0xa99415f5ef3a2b403519f4bb1c9bfbc46d4afd2e4477572ae6737160d7b91252, 0x82d0e64cae81f84bb9e2f10f24f6f6b6899a16ad590f4ddd73a377ac4bedc264);
   (0xb56f4e9f9e4fd1fc7d8edde098f935f84c750d705f0c132bd8c465b66a540f17, 0x32e8e53429cca856d3dc11adf0582d1d21d42963cbcca85446a2fcae0200102d);
   (0xe06372b0f4a207adf5ea905e8f1771b4e7e8dbd1c6a6c5b725866a0ae4fce725, 0x7a908974bce18cfe12a27bb2ad5a488cd7484a7787104870b27034f94eee31dd);
   (0xeac134ca2046b8f9c8dbd304fad3f3c045ebfdb4ec6ed3cfe09aee43ed2ff3e, 0x49630dbe79359b4245bf103bf2b11799ac19f696b7f21376e17206207d210988);
   (0xd6788590731fea198392119d7adbb41ff5948a7804c85b17476706e4dfbfa4dc, 0x28eaa8c89d5063c4940ef5c6d21c13aa6206f1c4ddc9a07cca7bcd6bbd3b5406);
   (0x6930fccbd9a040974abf210f12b71d4bc7b1a6205599b01a7275fb40e48ff9b3, 0x7f02ae94b94701eada30fcdb875f6d78090f9b13e4acc51acfddab5f8ee96a4e);
   (0x213c7a715cd5d45358d0bbf9dc0ce02204b10bdde2a3f58540ad6908d0559754, 0x4b6dad0b5ae462507013ad06245ba190bb4850f5f36a7eeddff2c27534b458f2);
   (0x1c5e548132b49a7f66ae9fed8323480e0d1ab974622e7cf08993895e0ec87fac, 0x4ffcf60f837f468f2bb959fa1d4c2ad3a3deaceb26fe324c555d7b3d5fc2d4ef);
   (0x46276d0602c5668ddef6e94210bbc7ce1f901c19fed5c970e20fcba1d4531dbc, 0xe0f7f24d44c75b84a292287570ded99498badfbffe1bc99af8730099686b8e2);
   (0xefea68eca7a6c24f4e65eb211c3191636850e0acdc78d8996114ef13522f001d, 0xaab847869d583c14da150307a3719a17e413959fb3848771c128419f73bc4415);
   (0x4e7c272a7af4b34e8dbb9352a5419a87e2838c70adc62cddf0cc3a3b08fbd53c, 0x17749c766c9d0b18e16fd09f6def681b530b9614bff7dd33e0b3941817dcaae6);
   (0x899017b02696888f268a269f4e385d9c9b11f25a1bef8790e2821e6e7c6e1b4d, 0x43ae2cdab5b334f0bb45798336358bfae4e51bc0f932b212009aebdad814ab2b);
   (0x67f644f76e905fd4a8f4728e63227f0e2831f5bf91b583a8af2635a17e5f712f, 0xb833d68f66445d04f05adeb7b586cf785e0e1488f7d36198d68acb5e707160e5);
   (0x327f876c93652555fa80a054968b4712930dc93012ee6b8dc10263ed3b89a762, 0xb2d404eab3524026b09969255e1997b975535070febd7dfe9c9fd959b9203301);
   (0xfea74e3dbe778b1b10f238ad61686aa5c76e3db2be43057632427e2840fb27b6, 0x6e0568db9b0b13297cf674deccb6af93126b596b973f7b77701d3db7f23cb96f);
   (0xed9441c8304280ff180e03d850e8cd0ebb570ee5de3730488fd97c961f9756e4, 0x3dbe9e9efe8bfa19afa176128b13911e09f23774fe4de98bff0e09f93f3abfae);
   (0x29d9698ee67a7c3fc9fed3f624b487515b10bdd84fab4d3015bad033d51cf119, 0x7fd02c517dc82b45277a125404f1c96fb89c940e93a7c2963c88740575056339);
   (0x126b57d05013936d6f3fb7bd33580a31fd453e4a86060cff467c44537f422491, 0xc1a7dc13061662c2e3c4a3eba2bf3fb0e148bac30bf39347afa31f199da3ef84);
   (0x76e64113f677cf0e10a2570d599968d31544e179b760432952c02a4417bdde39, 0xc90ddf8dee4e95cf577066d70681f0d35e2a33d2b56d2032b4b1752d1901ac01);
   (0x708a530e9e52c73bee87c9d88161c810005d57622c29ae691cf999a83a1187a5, 0x9b884811e1f9a897fa9656dcbb6d38283ecda73c6d353e8a58a4f19b473db9c0);
   (0x19cf034fc48b3be219bd648395e462cf9f374b6d86b2b59e2e1b16c6cde4f5be, 0x28e32b06a15ab466c3b4be68ab181947ef91d1c93f0f1c0c0a91532b6f321af2);
   (0xaf6c44a078cb5f0d7c719c2f8397f576ee93bd034bea2219e3abc209d17cf3e8, 0x784096fe85d4b30af9e73153cb246dfec362aea7ca0d435b8add0601751baea);
   (0xc738c56b03b2abe1e8281baa743f8f9a8f7cc643df26cbee3ab150242bcbb891, 0x893fb578951ad2537f718f2eacbfbbbb82314eef7880cfe917e735d9699a84c3);
   (0x5578845ecd7c037435b32a6992e7aa94647197ea49b8c9e4ddaab0784662ab1b, 0xe61d07978b6de2c3cea6d0a51d2a4053f653a7746a5d64de316d18f3056f3511);
   (0x47f3383888a364cc4abfa3bc1d0ceccd22f12354fce3996094f869b8948b6c29, 0x48ca9a8d0f032937190e48675b416c7118bb499588f994a81edee1120e537ef9);
   (0xc0c01f34ae41b8cfe466b4c9c6a5d5f614f570d6fcbef768a81a6c8f05ff4adb, 0xb84f5bee4357f5c7c937a0b4075b8cecdbc43d170d15b85fc4eff73ac351065);
   (0xd895626548b65b81e264c7637c972877d1d72e5f3a925014372e9f6588f6c14b, 0xfebfaa38f2bc7eae728ec60818c340eb03428d632bb067e179363ed75d7d991f);
   (0xfd136eef8971044e8a3a43622003a26703ecaf7a0ec40c3fba5b594b77078424, 0x218da834f3c652cc67a1d191b5c5efa57cf2b1f78a2adfa8cd61eeefc671ddf1);
   (0xd99e8e9dd9638d140e9cca5367519f861b7003a0d43f024a5f1d84ec8db1cb3c, 0x36dc19ad1cc0a3a7a945bb321bceba6e6286fef8ffc8765cd88a29e36b8637a7);
   (0x3fdf1619a198317a1bd8a54e5b09191d203351e0440e636fd46f68d3c385172, 0x408d02c06e5c12c3fe470c7d3c8573755b9b929e90e7232b79ac67f0fccb9794);
   (0xb8da94032a957518eb0f6433571e8761ceffc73693e84edd49150a564f676e03, 0x2804dfa44805a1e4d7c99cc9762808b092cc584d95ff3b511488e4e74efdf6e7);
   (0x6d36d105ed8cc5ce53f2cb698ab620f9469a3e5cb25bf6e6d413f414c5af726a, 0xe4ba5c34e377669e72d8c66c95c50029dcc59936b4108a35c570491a13f9fc7d);
   (0x3ab6bde10cd3ac0cd06883fa66f0b0e3eb1309c0534b812286e2a30ca540db99, 0xbaca62079be871d7fc3117a96a13e99c38d137b0e369c043e6873fe31bda78a3);
   (0x796634e3f1ad56f0fdba069d9d07bce2ba2fd4f373ddd3ba7777bf279f1048da, 0x4d8ee2b6cfb20b8956de74735a7927f2532576d8cfd74862e8f9be24a106cf01);
   (0xe80fea14441fb33a7d8adab9475d7fab2019effb5156a792f1a11778e3c0df5d, 0xeed1de7f638e00771e89768ca3ca94472d155e80af322ea9fcb4291b6ac9ec78);
   (0x440ca1f08ea41265981ac4ed1efe7a37122dcc3877d2f9162db0e78b0f83cd58, 0xa6c8b0d2cd5ee122af8954dc9d4e2f02a21e4d4269c0a260b07bc069b88a3f4b);
   (0xf694cbaf2b966c1cc5f7f829d3a907819bc70ebcc1b229d9e81bda2712998b10, 0x40a63eba61bef03d633c5ffacc46d82aeb6c64c3183c2a47f6788b1700f05e51);
   (0x8b6e862a3556684850b6d4f439a2595047abf695c08b6414f95a13358dd553fd, 0xea5e08910ed11cb40d10bc2df4eb9fa124ac3c5a183383d0d803dad33e9be5ed);
   (0xa301697bdfcd704313ba48e51d567543f2a182031efd6915ddc07bbcc4e16070, 0x7370f91cfb67e4f5081809fa25d40f9b1735dbf7c0a11a130c0d1a041e177ea1);
   (0x27e1e59cff79f049f3e8d2419e0bff74b43965004c34b5d811420316f24ba5ae, 0x310b26a6c804e209ee1b5e3cfc79df05df48a1a69afa63f784a5bfee883a45b3);
   (0xc712e7a5f6864aee16588ec3892d7e4f5a39adde84fbfb4f9969175c9caed7ae, 0x49644107516363b365ed4b82311dd9e5380d8e544b0ce63784d148aa46156294);
   (0xbfc0504a4b3235d065c0d426b8675fcb2c85d6f58275d791b43e1fe44a6db03, 0x1955467a6c34f3453fb8ec7f94a6c99237427197345d4f0558ac8d1a464b8542);
   (0x90ad85b389d6b936463f9d0512678de208cc330b11307fffab7ac63e3fb04ed4, 0xe507a3620a38261affdcbd9427222b839aefabe1582894d991d4d48cb6ef150);
   (0x7e2cd40ef8c94077f44b1d1548425e3d7e125be646707bad2818b0eda7dc0151, 0x905b75082adcfab382a61a8b321ef95d889bee40aeee082c9a3bc53920721ec7);
   (0xa146f52195bedace21c975bbd1ef52a79c636bf9db853cf90e103ae41345e597, 0xa5a99b0ab053feb09ae95dd2dbb31b40ea67a5b221f094b07675676af45a770a);
   (0xd24c75a1cf1993b9bcfbf9dab25a8114dbde421efeccc4e20cbb53fc4ce45444, 0x58fe1d2de84dc1d1cfcb7d1810e5a78abf7593f499f1e524cb93246987dd4a57);
   (0x8f68b9d2f63b5f339239c1ad981f162ee88c5678723ea3351b7b444c9ec4c0da, 0x662a9f2dba063986de1d90c2b6be215dbbea2cfe95510bfdf23cbf79501fff82);
   (0x4d49aefd784e8158fcafebe77fd9af59d89858ade7627eaee6847df84cf27076, 0xcd32fc59a10dd135e723f210359ca6f06e0f2d1a7df4d8466b90b66203aa781e)].
Lemma g_tab_eq : dbls G g_slopes = Some g_tab_lit.
Proof. vm_compute. reflexivity. Qed.
Lemma g_tab_ok : tab_ok G g_tab_lit.
Proof.
  intros i q H. apply (dbls_ok G g_slopes G 0 g_tab_lit G_on_curve G_on_curve); [symmetry; apply smul_1|exact g_tab_eq|exact H].
Qed.
Definition multG (i0 : nat) (ts : list (nat * bool * Z)) : option (Z * point) :=
  match nth_error g_tab_lit i0 with Some p => comb g_tab_lit ts (2 ^ Z.of_nat i0) p | None => None end.
Lemma multG_ok i0 ts k r : multG i0 ts = Some (k, r) -> on_curve r /\ smul k G = r.
Proof.
  unfold multG. destruct (nth_error g_tab_lit i0) as [p|] eqn:E; [|discriminate]. intros C.
  destruct (g_tab_ok i0 p E) as [Hp Ep].
  destruct (comb_ok G g_tab_lit G_on_curve g_tab_ok ts _ _ _ _ Hp Ep C) as [H1 H2]. split; [exact H1|symmetry; exact H2].
Qed.

Definition mg_a1_ts : list (nat * bool * Z) :=
  [(124%nat, false, 0x96f70a2194a78cb43b234babad6db836fa2595003f9e23ce6a89363fc6ae0212);
   (119%nat, true, 0x22c48d703c847096829291702a96ed9f7333cb8f8ba20be905be4dcb583ea9b6);
   (115%nat, true, 0x4773ba07a25907ba381b52f3b1c6ece051038f3fb50c04ce2229724399510a43);
   (112%nat, false, 0x2c5e0e31ef47cff2ddd70392ab03f73750475ab55ef34a69678f737637e39489);
   (110%nat, false, 0xc66b51f3c7c292fdbc5006ca386c59c82b4112a7008bbb9d3e909e90b769ce23);
   (108%nat, true, 0xe3b5e08469c14ee463611857a108a71834c8ff3e34f61206da52baf4a1c15186);
   (105%nat, true, 0x1fedfe072761131ddf070d139dc06db547eba7809ce0a447df4c7688a286bf4);
   (101%nat, true, 0x4cddcee0f0d104d281efdb4a0276f959cd259abc627d5cf2e6d4d67eaf1766dc);
   (97%nat, true, 0x34feff33a0ba49874074e24c59aa417782d95794f73242fec5ef29546a206b9);
   (95%nat, false, 0x83e56eea79b8234a5969e03ad94e7d8315c3416b09db045aa6169c4854151794);
   (93%nat, true, 0xd55744aee7d7db86f09c35bfe10a1d17e2b30057ef3e7a4067b3db8068fac844);
   (91%nat, true, 0x3a54c45573032ccc96d5cbbca237b12fe81ca5c1b630ff46439a1a62536392d5);
   (86%nat, false, 0x1051da87db02737463566fcdfd71f6d1e53e51301796a7df1555da15fd9e523d);
   (84%nat, true, 0x4ad02fae871ff93ae267952233750a78d931137118573f673a6980cb3a587534);
   (82%nat, true, 0xb0951f32baa85d03ff116528e2b4e9bcacfe01bf986ea09d109ee0e4f57b051b);
   (79%nat, true, 0x91113a4e2db23b05bef1a8ce41ed80088e3d35eaa615c8845eb5b8316bd8d6ba);
   (76%nat, false, 0x5c47bef184faaa1b390bed4c9f0ce4bea9ca39e704264387bf147bbad9290f56);
   (74%nat, false, 0x84ff617aeca36ce00710b370ec965c4587609bfb3ac3fa7dd3fe7223ee359174);
   (70%nat, false, 0xe9025a44a150f24f195bcefc93e62a7bfc878c512bead603f9f97782cddef4d6);
   (68%nat, true, 0x5fa1e97104bb9c080bd31e4a136fc232a905f4a62678028d1fd968ec4c0e27e5);
   (65%nat, false, 0xe482c49277f33e0fc25108d49b5429463eb7f60401f353158e7a3845b8e84402);
   (61%nat, false, 0xc71b12158fbd96c934d6687fd3fa06df84f37df5c3b90d0ba6ceb2f65baf4d91);
   (59%nat, true, 0xaec2ea9a5c81cd740e291237d92239e88a5ed6dcd9e29b44efb316e47c2d6bda);
   (55%nat, true, 0x4db4f274640981915a2d5e2de9c58fcc9e4147db71d8daadbd6a547daf3e93dc);
   (52%nat, false, 0x9f667ebde89114e43cdc27adcbbf8d868577911471783c56f8e64afcc84411fc);
   (50%nat, false, 0x633c643c0db111bd981531b09c5b75654691c30d69c2547dc9c4d585ef94cc9);
   (47%nat, true, 0xface9b922d01b4a2b2badc1201083b4d414246562d17cf81940ae47b1466155d);
   (44%nat, true, 0x785c3ac850d83b99356d8ed5f637581b54780c389531f1ec0b5b96204d5eedae);
   (40%nat, true, 0x17b23a8047a2e842599e9885b973dd04eb0020ae5fe51bf9305d4b4d9448b68c);
   (37%nat, false, 0x5612c7eeac0246fd6d38ca33113e95737a248cda70c9e0b6a3581326762a4a86);
   (34%nat, true, 0x5468d5aad35fdc367831f16390c126933619b29a1a6f274fe028e06c9a880b60);
   (31%nat, true, 0x40419b31d9ed2a8999c4939ed92a98832edf9b2614bcc0251c7de473bf3581fa);
   (28%nat, true, 0x8fe31afb93051a51e294f4740404487d7e3dccea527a833a101b010de8d83821);
   (25%nat, true, 0x87a7970c661b1a4974e14aa2e77ce03d9fe8d0631c1b693e67ccae64b7bbd72d);
   (23%nat, true, 0x6d3962cab66cfb0d0e9350cb899562417bcc66bae57101449b13794158782e69);
   (18%nat, true, 0xa0a6baa4f7200f052fc3902c94a3356640a25b5a7ad77f3adeac8d02ebc47fd1);
   (16%nat, true, 0xeb424ae29121c9ff5777f4a7b969c38aa7af0c48b18d7eaf3828c41b16b55e4f);
   (12%nat, false, 0x982af31ced7d3633baf8a5a204b499745318302a9275ca3f8bfce418f155d3b2);
   (10%nat, false, 0x5c7657d7dbbcd598f363602a0fa48b5f605fd152a3b6931338ef310d4f3d6bd3);
   (8%nat, false, 0xe0823fb857d1056cfae1ed4ab247a097dc114fc27122ec7fed608a1c57104f97);
   (4%nat, true, 0x279d2f2c705dbc7690c85495a8168d0c1817c9e8b524792204f2e574c92c1750);
   (2%nat, true, 0x1d6de6482c6ad03814183f8eb176df810303a86058765834b5a25b1cbd7ef9ea);
   (0%nat, true, 0xc51e447cefd25a19c016e94c152b909c3ba3ba7c1eb86040fe4ceb0fb382effb)].
Lemma mg_a1 : multG 126%nat mg_a1_ts = Some (0x3086d221a7d46bcde86c90e49284eb15,
  (0x8e25d6f2db3b3433ecaa393cde577c45ce7ee1caea2d9946270f80361b648397, 0x67e8678dd47375f983e082336bde6988cd19f78f8a12e9dacff721afa59c3c31)).
Proof. vm_compute. reflexivity. Qed.

Definition mg_b1_ts : list (nat * bool * Z) :=
  [(125%nat, false, 0x844f7c9878e7364536efc0342f816dbc85992ecf607e6c9e3b47a659c06e50a7);
   (122%nat, true, 0x5f102c64b6a29115bb4f8f6d8e8c9b76057e856e00999b398b15fe316efec4b4);
   (118%nat, true, 0xa8b76ea562623005142ad58264307b0b58cf3fc401d0c528779d6881cd64f5ef);
   (114%nat, true, 0xc65e1ef698d4cb867a421b827d15cdd3d49bef3dc5a1fbe505df909c7fbe6615);
   (111%nat, false, 0x189b31d55d090ad0db5882deba5274e9e771b8413ad5e6a578685288d7907614);
   (104%nat, false, 0x40be17bc818399d424e66f4149b5cb566cafc6bbebd377323a9beffc6270fa63);
   (101%nat, false, 0xd85fd51b29bcbb89d12824b6f2d4594f0ed6fff59c3e694bf6a2a8e7dab9a204);
   (99%nat, false, 0x59335d6601f0067b5b3405662bd89571e2d6524636f54ef4eb1a3913566caa5b);
   (97%nat, false, 0xc456515dc149725e4b15b95a79a782c57dbd703b9912273ecc20892ae833303);
   (88%nat, true, 0x5cca35985505d6e0cd2bcd8f754e57054a25bb23b5f5c4707f176be35cf8fa65);
   (84%nat, true, 0x4dc0bd32d7bfd377f1838c571947c9aca2acad47548eaaaf84b9d525ef77eb0a);
   (81%nat, false, 0x3de42bff1809ae6f2ce5b093a3fd18e42bd457303e6c88664e02084285ff407c);
   (79%nat, true, 0xebe8976441653d2046ac4d5735fc9c735dac140cbbde231ecafac548b39de389);
   (75%nat, true, 0x17cf2a32f2698c94c3a5420e736bc4baa905fe8913ac7fd5c7c26f0cbb77a009);
   (69%nat, true, 0xbbaa1d187a26197852b19874a019365b059750642c9f8620c27a02916db3b258);
   (67%nat, true, 0x4b478fa72337dc4dd5444bbb4dc9514af382d0461a7aaf1222727585ead0bbe4);
   (63%nat, true, 0x65b3ef3944a03395966ce3f87917ea7f4baa8f48f90098013c9d2a1c98bf0f);
   (60%nat, false, 0x843ade360e3341c65c6d70dcbcc0e2b3c071492b69e3090d8e80e5ac41ea548e);
   (56%nat, false, 0xda6bd10c5358233f2cca08fa3616a26e148d95d0716a3e3651120cd75e563853);
   (54%nat, true, 0xba325b85347885507ab801761454b205d5ba6a747f7c8e85e8fcd69e308c0506);
   (52%nat, true, 0xcf3d8e55873abfbb86ec2bfe56153f7ebebfb449ed73d450edcee89966e586e);
   (50%nat, true, 0xbe0936b035694d348520ec283d08175bdcbc9f08d48c985c0ccd1b9026c81ff4);
   (47%nat, true, 0xbb66c2165c12d5f7cdfe3427cef7fa105791330be0820a83cefb133eb0a8d0b1);
   (39%nat, false, 0xd364074dea71aef60272e462f63c7bcaef810ba666cea5ca509497b8e48aac7b);
   (37%nat, true, 0xe3f042c0cbd188f06e99467854b012216fe5ba7a2454d4415b354bec04ba7f80);
   (35%nat, true, 0xdbc00af179ecda5ca3dbd0c42421b0bcbf3265193ca8ce281a7eb18f6613bb84);
   (32%nat, true, 0xcc50d03097cabddf6c211773bc92747e4237b48330ff6d2ea0187440050e8071);
   (28%nat, true, 0x9189808f377789f40d3a447349acefe6d91350f9a6960fd8555ed69e57fd89b9);
   (26%nat, false, 0x84dbd9db3e990d63e13cebb043b90af9cbb6b629f60b869e483cc724d17a90d7);
   (24%nat, false, 0xafa0bf842e6ac0d04d6c8310f17aacba9352b64e0712a2d7eb97fe700fa6461b);
   (22%nat, false, 0xf0862804baf9159c5ec3610f402b1348bcf01835eec123038a7d0f6d41443526);
   (13%nat, false, 0x3e7e45542227ebbfd0cc3f031bb2c6c96b5e68e72a4d56967161f99ba776bd1b);
   (10%nat, true, 0xb94592d472102d17ddab2cbfa9df6791716415725b24ce87e1145955281f18f0);
   (8%nat, true, 0x9a436144d9579d55dc3f9197e9f0526926e70ca456824ab9868d03b39575f92f);
   (6%nat, false, 0xbbc76324e803e21bc936f61285e801920c0f5c9c120a6f6364d2aff2d538ff14);
   (2%nat, true, 0x6582867b2597cd866d6b1df4adcbf1e21aa44f9974683da1e771c7834c1e4d22);
   (0%nat, false, 0x8de39ffade564853cc8af967dccf3af712b0eca60a58488c3457660374e941b1)].
Lemma mg_b1 : multG 128%nat mg_b1_ts = Some (0xe4437ed6010e88286f547fa90abfe4c3,
  (0x5b07b9d61e11e575ebcb41954f02b80211cbb3bbd2c9d294988df4cd068cf919, 0x67e8678dd47375f983e082336bde6988cd19f78f8a12e9dacff721afa59c3c31)).
Proof. vm_compute. reflexivity. Qed.

Definition mg_k1_ts : list (nat * bool * Z) :=
  [(124%nat, false, 0x7b4fff10bdfadb9679f3662b9c1c99e237e2466cd6986aa9fea7621ff1393aca);
   (122%nat, false, 0xc9dca8b2322d3e3493bf08b573cf4a04214c8452b28bc87ad0aae2b726d6265b);
   (118%nat, true, 0x1f4f161eadd619d3835adbac0abf90c43591e387060f63db4ae67d34bd478d4a);
   (116%nat, false, 0x208b66414978a2f976ff85b81621ab2191739b358aced04502bfcbadfc4689e2);
   (114%nat, true, 0x525b835ed3f25b96fb890a7c6da7e01ac8da867a35a7e54c103b43515f8ef05b);
   (111%nat, false, 0x5e241335c937fd167b9f1bf12b3ba73851f6b8ec63d8e93ef3f17e72a72ee541);
   (109%nat, false, 0xd780d978463045c099a21d37f45a58aa74f6ec335267b0103ed89874c208eed6);
   (106%nat, true, 0x5250dd116dcf7a12d09104e54211a3f8151128d4a4ac4bf8a0068d56c77b9d2a);
   (104%nat, false, 0xef167ae63f35656478ebb20ca42078e0fb90476ee200fa36af09d529f3cc3a74);
   (102%nat, true, 0x9c4045e4e512d8809504cc3bc8d55316296362c42860f421c6c1f6a07a0a378b);
   (100%nat, true, 0xf152a68ca7776cc08132c67d37b239a76d2b04a0a357004d31d1e63c788ab324);
   (91%nat, true, 0xe162e2ec47fb19977db14c7f1c7f71448aa690e88ddc1a57f77b961757fff5ff);
   (88%nat, true, 0x980038388a0153d1dc09432c1091f1640fd826d2d350f7f9b65a18ece0946cb4);
   (85%nat, false, 0xc2cf90e70cc6333b895b4f6543f948e425cf3f8db7cfd7f914fa48bc0979f496);
   (83%nat, true, 0x6903b2456ee32c5ef54b5d1e073c092dd9065f4edf9ba6ff726256465f7e3b08);
   (79%nat, false, 0x7365e9ce916dec4c0b9b84a423f7b564e98de9bd1ca620027e8509eca10797bf);
   (75%nat, false, 0x34013e123fa24bc3764749b9a48311f7569443f575f284e508836a467a74d957);
   (71%nat, true, 0x3d9aaecb0733516c5eecd6ffd8cfad06d9616613df01bd60b3137deac49a607f);
   (68%nat, false, 0x16e4da5d74d479672cf27ebf9ed472c80d62d838429e2ced80fa978748d9b8ec);
   (65%nat, false, 0x46e43876ad11ca64734b97239c89c075cd51062082ab0e79325ca42f3c04fbcb);
   (60%nat, true, 0x3b13a0f881e4405cca37727d1bebce006da6dc4d5e63fcb940148c32d8b8db5d);
   (58%nat, true, 0x297d89a766bc1246928b029bd544fd81568702ace0fc3ab4fb4ebe31ef5abda1);
   (51%nat, true, 0x47ffab11646f7d3c643bc0c986d938a8c35c85db83fa6bd57c1f58da40c66b2f);
   (47%nat, true, 0x8cbb3a284e670fc129dcd7f176026679495f765e665fee1961179731ed204416);
   (45%nat, false, 0xa4b4591222b4bdc2916edd43320cd6d7fd3101a3975de46554cbd21e979aa6b2);
   (40%nat, false, 0x8a6cdeff288207bd8fe37c40b0f396d503cdae51bb07baaba4c19ed870854);
   (38%nat, true, 0x11c544672b1f205e344b600373fe72b628aa9a399e2faea7ad1401d2b95e109c);
   (36%nat, false, 0xc4bb5c8d7f1ae84c907bc913959ad498090cb02199e57c9456f6726fc60212a9);
   (34%nat, true, 0xabe947300fdf3c49582b026edfe270c42792fe234dea3bee04f2a576eb32b9ab);
   (31%nat, true, 0x1d4e0f05f302cb8b2dbb36d4a5c7be429383b262e025326a542df23808f9c15f);
   (29%nat, false, 0xf794f58c33bb64aca61dc7b4fb8790c39b3388ff9be8007182b4970bd772ed0b);
   (24%nat, false, 0x8137fdef607a7662523afeb081a6119dea36bf1151b9f4ca66788b288c420b97);
   (18%nat, false, 0xa9e3bf8c108a59141d0970123daa5298adb77504ba59cd048f5ad3b1e10b7593);
   (15%nat, true, 0xbf4fd87e207fa6f8b9c86702c55ea1e8434eacf4442ae0b6bc30908a53274632);
   (11%nat, true, 0xe7d60538c15454e3692e450ce266be075f938f69e09f1a690f0fad8d92f69f76);
   (9%nat, false, 0x3d5aebc37caf5b4f434c36f936b7ced568239c476b3d63abebe1bd07d301246b);
   (7%nat, false, 0xe072ae9189010d9b0618155b3db60b01f61bc35bc50bdc4888ebdcca9d58d1b2);
   (3%nat, true, 0xb9af86bec93d1730677dfab79db967f36c85292eac91ae2718fa318ad424973e);
   (1%nat, true, 0x8bc05983c5e9bd684f87b77baa9414ee1cc3f694ab86ddefb8a4caf4d10e8123)].
Lemma mg_k1 : multG 127%nat mg_k1_ts = Some (0x6c33635008e7786e14085f345efc858a,
  (0x6d6895f830a63f1b28fcb926d4b42848f79bc40c7e1482dfb75ebf7d40411928, 0x4e0b3d25a9ee08222f39aed00f54406819f9acba19a8f066001e15da322001b8)).
Proof. vm_compute. reflexivity. Qed.

Definition mg_k2_ts : list (nat * bool * Z) :=
  [(123%nat, false, 0x52e00e3ef2345a8761df71e96329f4420533395148744770a1446eb54d220406);
   (120%nat, false, 0x2f99ea06f8ee6463528c10d4e818e3be6efe620ec8e30ab43886696d704e879d);
   (110%nat, false, 0xee37aa7f311410e55cf76bb750a6b2fc20283509985a167ab3ad2c442581730b);
   (108%nat, true, 0x83ce3f481ff78b89980aaa7ec04fc7172185c88cc0e5ee94dec9d50f799cfb78);
   (105%nat, true, 0x97eebeacaad64be3b46a2fc115d83e354d1de8512945be51fb6cb16278b218fa);
   (103%nat, true, 0x7a177db8e971cd6a1a1529757053714b296d2f9d5eb9b2f878f1c551b5a4c559);
   (101%nat, true, 0xa67cb848f9e35c2e4e23875ec7ceeb6911998dbaa63464f82f203bcbe6ae90b);
   (99%nat, false, 0xd57af49d7d1614542f4013ff8fd9dea6dac5e6e2300ff70d3a0cde1cceaeb3b);
   (97%nat, true, 0x8afb7e50e025c1175aaaa0d127aad33d9f947fac9b18b3633005acda35162114);
   (93%nat, true, 0xba2e68d8fcae8570478b81f599edb3b7f9bf28a0aff7ddca593c16c16fedbc94);
   (91%nat, true, 0x8fcb7efe403f3751613f9d0ee681efe7a3324b90b40c7050512b6c36760d4dc3);
   (89%nat, false, 0xafaa1d6807abc0ceec306f1317f1047e3db227bc41ae637780e7d65fe33790a);
   (87%nat, true, 0x516836e4f037ea43f3dc869b0419b4d97a8d686be32467cb4d36b4a2ddfcb1e5);
   (85%nat, false, 0xc172886caa506f66d241c83e5f8bae17a0091868b20df763d1d48fc92888c3db);
   (83%nat, false, 0x842b5e8d8313613bae3a4e4f08746e0673001ea326a5fb5c9172159b1694395c);
   (81%nat, true, 0xbcc2a273e76f847253f9a012a1a7d5cd5f444841e5aae6bec4827f393ff8fff6);
   (79%nat, true, 0x4ebdb21d58dca4802453222e9e3d844fa53f797c4311d2e1b69fbb157ce49d3e);
   (77%nat, false, 0x5809cb8f3d38797d4b40e062a3722659c948a31a95df774d4c206a3333449ecb);
   (74%nat, false, 0xaa054a75210e8e693b8b5c5f132bc267be74f9c5ebb8f5170ce20f46191e03e0);
   (72%nat, true, 0x14eab7b0207879c47585808d12ddf10705306dea176fcf5bcabbf565cab88ccd);
   (68%nat, true, 0x78ca80e0bc8a4c6ce293f1be3d84a960478ec71ce81b3ee50c7329dba17000b);
   (66%nat, true, 0xe0cba16989e4d52a5913c7713b2b1afd90aba39955ad4c51f4005a131e6357b7);
   (62%nat, false, 0x1961302a3ae645253ca30ff0cffc349858dd7d347befe99e492f7e7e95bef37e);
   (57%nat, false, 0x349c0e162e57478e1173b139099baa24e93aba73f42faad59e8e6b5b45c3de6b);
   (55%nat, true, 0x9ab66b44a322900f4a4ed11f5ac5548457da1123220357081beabafde798839e);
   (50%nat, true, 0x2ec771e5358b17706930da180b8a367ef3d822324aac656aa9e1855ac331e134);
   (48%nat, true, 0x51b8d6523e64694061a8cbf9ec3736b2b27170c62692f71ed57cc360af51041f);
   (43%nat, true, 0x9d4d9d4da69d1dacaed65c55e2b565c2db7d98fd415386a6632d013084b99895);
   (41%nat, true, 0xd9ca1e26c787099ba82f7dc93defc266e72b1a23e3a1e1689fe39a0d58c70d59);
   (39%nat, true, 0x626cee46fd0fa08c4976b044ae53efcfdb1cd80c87680d63932d3b8baed582b6);
   (37%nat, true, 0xb52a3dcbc00e51701bc9585d59ed1a58f34e00b741c904112bae730583aa8321);
   (35%nat, false, 0x45d5ee78b611788739e1978d3d60357345a4220c92372aa8616da55accfa96c4);
   (32%nat, false, 0x52052c4abd32f1df8822bc4ef444c7fa952c4c50ce746b636f908da6f65ba690);
   (30%nat, true, 0x2ec7a7ac6a6d29b758974cb3e2af078480005502f5eb710f966a8f15c0dfe683);
   (24%nat, false, 0xb0198050f5d191a599b67fb8dbb0dec6dcdc9b0ca99c9b0b6061147956532d2c);
   (21%nat, false, 0xc04ea6694e7f51093123f48a1a991931abd45738f019bd6c7e8c86a9d3a783ba);
   (17%nat, false, 0x5f4f69ac84f2e9417055778f24266293477b3ed5fbb8a03112df4baedcdee780);
   (15%nat, true, 0x9240264c05c829e82dc1d0c94933dfb25c1e0e746af9ef16e8bfe1efd732e68a);
   (11%nat, false, 0x396e6066bd433ed94c7ef0bf333d50866983f401a9a59c30560bc6422d4baec2);
   (9%nat, true, 0xe4bd964242a7b28f8b7140712b9e7bf2941b8080be6ac5097c9c753dfb72140f);
   (7%nat, false, 0x80e8bc62ac1445b64cee4a9e4360737a77c1597abe3216fcde131fdf338cfaa);
   (5%nat, true, 0x45fe7517dfb052097efcbaac486e9f8f9530c43ad50cabf5b076d9583a453367);
   (2%nat, true, 0x2a6c4385b0fb85870099c019847f22ce0846c5740fce99a077a402edebe5551e);
   (0%nat, false, 0x32dfef844ad74d4ea2de5875d24414ab0b6e01e9721cde7d031f453839a29dad)].
Lemma mg_k2 : multG 126%nat mg_k2_ts = Some (0x36ffd29a265a5d13be850a973ede79a3,
  (0xd46e51fad4c2913b95ac5b705b5c6d3bb1902a9eb0d446c0fc422ce97b76cf43, 0x2069c5705c519c8d352adeb48c67ac3e82c3e9b05f0d6818fb1dea02e8c0ad01)).
Proof. vm_compute. reflexivity. Qed.
